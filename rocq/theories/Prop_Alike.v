(** C136: the same calls do the same on a Unix terminal and on a Windows console. *)
From Verif Require Import Base M_Utf8 S_Utf8 M_Geom S_Geom M_Attr M_Buf S_Buf M_Writer S_Tty S_Writer P_Buf3 S_Emu P_Emu
  M_Api S_Api S_Alike P_Alike P_Api.
From Verif Require M_WinWriter S_WinWriter P_WinWriter P_WinDraw2 S_WinScreen M_WinApi S_WinApi Prop_WinApi.
Import M_WinWriter(w_con, w_at, c_answers, c_view, v_cell, v_cur, Wins, Con, Coord, Rect).

(** C136.  A program calls methods of [TerminalWriteGuard] and [Terminal] to write text, move
    the cursor, erase and set attributes, without leaving a line ([walks]).  It runs on a Unix
    terminal, and on a Windows console whose window is its whole buffer, which look alike
    at first.  If the calls succeed, they look alike afterwards, with the cursor at the same
    position, which can be computed from the calls alone. *)
Theorem C136_same_calls :
  forall draw shown default E C K t0 cs w w' s s' u F p a,
  S_WinScreen.places draw shown -> S_WinApi.draws draw -> keeps_window draw -> (default < 65536)%N -> (65536 <= Z.of_nat (umax E))%Z ->
  implements E C K -> full_caps C ->
  Forall (fun c => plain_method E shown (method_of c)) cs ->
  whole_writes (script w) -> style_ok (sty (wat w)) ->
  look K (feed K t0 (stream w)) = Some u -> vattrs u = wat w ->
  S_WinApi.faces default (w_con s) F -> S_WinApi.f_attrs F = w_at s ->
  alike shown default u F ->
  walks (vsize u) cs (vcur u) (vattrs u) = Some (p, a) ->
  api_run C cs w = Some w' -> M_WinApi.win_api_run draw default E cs s = Some s' ->
  exists u' F', look K (feed K t0 (stream w')) = Some u' /\ S_WinApi.faces default (w_con s') F' /\
    alike shown default u' F' /\ vcur u' = p /\ vattrs u' = a.
Proof. exact same_calls. Qed.
Print Assumptions C136_same_calls.

(** C136.  And if they succeed on Unix they succeed on Windows, as long as no call to the
    console fails. *)
Theorem C136_same_calls_succeed :
  forall draw shown default E C K t0 cs w w' s u F p a,
  S_WinScreen.places draw shown -> S_WinApi.draws draw -> keeps_window draw -> (default < 65536)%N -> (65536 <= Z.of_nat (umax E))%Z ->
  implements E C K -> full_caps C ->
  Forall (fun c => plain_method E shown (method_of c)) cs ->
  whole_writes (script w) -> style_ok (sty (wat w)) ->
  look K (feed K t0 (stream w)) = Some u -> vattrs u = wat w ->
  S_WinApi.faces default (w_con s) F -> S_WinApi.f_attrs F = w_at s ->
  alike shown default u F ->
  walks (vsize u) cs (vcur u) (vattrs u) = Some (p, a) ->
  api_run C cs w = Some w' -> S_WinWriter.no_failure (c_answers (w_con s)) ->
  exists s', M_WinApi.win_api_run draw default E cs s = Some s'.
Proof. exact same_calls_work. Qed.
Print Assumptions C136_same_calls_succeed.

Lemma demo_keeps_window : keeps_window S_WinScreen.demo_draw.
Proof.
  intros l a. induction l as [|u l IH]; intros v Hv; [exact Hv|].
  change (S_WinScreen.demo_draw (u :: l) a v) with (S_WinScreen.demo_draw l a (S_WinScreen.demo_draw [u] a v)).
  apply IH. exact Hv.
Qed.

(** A blank console and a blank terminal of 2 lines and 5 columns, and a program with most of
    the methods. *)
Definition ex_con : M_WinWriter.con :=
  Con (M_WinWriter.View (Coord 5 2) (Coord 0 0) (Rect 0 1 0 4) (fun _ _ => (32, 7)%N)) 7 [] (25%N, true) [M_WinWriter.CTake 1; M_WinWriter.CTake 9].
Definition ex_face : S_WinApi.face := S_WinApi.Face (c_view ex_con) no_attrs (25%N, true).
Definition ex_cs : list api_call :=
  [OnGuard TBold; OnGuard (TSetFg (Some Red)); OnTerminal (TWriteFmt [[97; 98]; [99]]%N); OnGuard (TMoveDown 7); OnGuard TUnderline;
   OnGuard (TMoveLeft 2); OnTerminal (TWriteStyled None (Some Blue) (Some REVERSE) [100; 100; 100]%N); OnTerminal (TMoveLeft 0);
   OnGuard (TMoveUp 1); OnGuard (TMoveLeft 3); OnTerminal TClearToLineEnd; OnGuard (TSetCursorMode CInvisible);
   OnGuard (TWriteChar 101%N); OnGuard TItalic; OnGuard TMoveToFirstColumn; OnGuard TFlush].

Example C136_example :
  let E := demo_env (Z.to_nat 65536) in
  let u := View (Size 2 5) (repeat (VC [SPACE] no_attrs) 10) (Cursor 0 0) no_attrs true in
  S_WinScreen.places S_WinScreen.demo_draw S_WinScreen.demo_shown /\ S_WinApi.draws S_WinScreen.demo_draw /\ keeps_window S_WinScreen.demo_draw /\
  (65536 <= Z.of_nat (umax E))%Z /\ implements E ansi_cfg (ansi_tty E) /\ full_caps ansi_cfg /\
  Forall (fun c => plain_method E S_WinScreen.demo_shown (method_of c)) ex_cs /\
  look (ansi_tty E) (emu_new (Size 2 5)) = Some u /\
  S_WinApi.faces 7 ex_con ex_face /\ alike S_WinScreen.demo_shown 7 u ex_face /\
  walks (Size 2 5) ex_cs (Cursor 0 0) no_attrs = Some (Cursor 0 0, Attrs None None ITALIC) /\
  match api_run ansi_cfg ex_cs (writer_new 64 (repeat WAll 9)), M_WinApi.win_api_run S_WinScreen.demo_draw 7 E ex_cs (Wins no_attrs ex_con) with
  | Some w', Some s' =>
      look (ansi_tty E) (feed (ansi_tty E) (emu_new (Size 2 5)) (stream w')) =
        (let red := Attrs (Some Red) None 1%N in
         let blue := Attrs None (Some Blue) REVERSE in
         let blank := VC [32%N] no_attrs in
         Some (View (Size 2 5) [VC [97%N] red; VC [101%N] no_attrs; blank; blank; blank; blank; VC [100%N] blue; VC [100%N] blue; VC [100%N] blue; blank]
           (Cursor 0 0) (Attrs None None ITALIC) false)) /\
      map (fun y => map (v_cell (c_view (w_con s')) y) [0; 1; 2; 3; 4]%Z) [0; 1]%Z
      = [[(97, 12); (101, 7); (32, 7); (32, 7); (32, 7)]; [(32, 7); (100, 113); (100, 113); (100, 113); (32, 7)]]%N
  | _, _ => False
  end.
Proof.
  cbv zeta. split; [exact P_WinDraw2.demo_places|]. split; [exact Prop_WinApi.demo_draws|]. split; [exact demo_keeps_window|].
  split; [cbn [umax demo_env]; lia|]. split; [apply ansi_implements, demo_env_ok|]. split; [split; [apply ansi_all_caps|split; reflexivity]|].
  split.
  { repeat constructor; try discriminate; vm_compute; auto; try discriminate. }
  split; [reflexivity|]. split; [split; [reflexivity|]; split; [exact (P_WinWriter.word_shows 7 no_attrs eq_refl)|reflexivity]|].
  split.
  { split; [vm_compute; intuition discriminate|]. split; [reflexivity|]. split; [reflexivity|]. split; [reflexivity|]. split; [reflexivity|].
    split; [reflexivity|]. intros p Hp. exists [SPACE], no_attrs, 7%N, SPACE.
    split; [|split; [reflexivity|split; [reflexivity|exact (P_WinWriter.word_shows 7 no_attrs eq_refl)]]].
    pose proof (P_Geom.cell_no_lt (Size 2 5) p Hp) as L. cbn [vcells vsize]. apply nth_error_repeat. exact L. }
  split; [reflexivity|]. vm_compute. auto.
Qed.
