(** C141: the example program examples/style.rs. *)
From Coq Require Import String.
From Verif Require Import Base M_Utf8 S_Utf8 M_Geom S_Geom M_Attr M_Buf S_Buf M_Writer S_Tty S_Writer S_Emu P_Emu M_Api S_Api M_Lines S_Lines
  M_StyleExample S_StyleExample P_StyleExample.
From Verif Require M_WinWriter S_WinWriter S_WinScreen M_WinApi S_WinApi S_WinLines P_WinDraw2 Prop_Lines Prop_WinLines.

(** C141: each call of examples/style.rs shows its text in its style from the cursor on, and
    leaves no attributes in force. *)
Theorem C141_style_example : forall E C K t0, implements E C K -> full_caps C -> ascii_plain E ->
  forall i m x w w' v, nth_error style_calls i = Some m -> nth_error style_texts i = Some x -> perfect (script w) -> obuf w = [] -> wat w = no_attrs ->
  look K (feed K t0 (dev w)) = Some v -> vattrs v = no_attrs -> space (List.length (in_cells [x])) v ->
  api_run C [OnTerminal m] w = Some w' ->
  exists v', look K (feed K t0 (dev w')) = Some v' /\ vsize v' = vsize v /\ vattrs v' = no_attrs /\
    vcur v' = Cursor (line (vcur v)) (column (vcur v) + List.length (in_cells [x])) /\
    vcells v' = splice (cell_no (vsize v) (vcur v)) (in_cells [x]) (vcells v).
Proof. exact style_shown. Qed.
Print Assumptions C141_style_example.

(** The fourth call, on a line of 20 columns. *)
Example C141_style_shown :
  let E := demo_env 1000 in
  let w := writer_new 64 (repeat WAll 9) in
  let m := TWriteStyled None None (Some REVERSE) (chars "reverse text") in
  let v := View (Size 1 20) (repeat (VC [32%N] no_attrs) 20) (Cursor 0 0) no_attrs true in
  nth_error style_calls 3 = Some m /\ perfect (script w) /\
  look (ansi_tty E) (feed (ansi_tty E) (emu_new (Size 1 20)) (dev w)) = Some v /\
  space (List.length (in_cells [("reverse text"%string, Attrs None None REVERSE)])) v /\
  match api_run ansi_cfg [OnTerminal m] w with
  | Some w' => match look (ansi_tty E) (feed (ansi_tty E) (emu_new (Size 1 20)) (dev w')) with
               | Some v' => nth_error (vcells v') 11 = Some (VC [116%N] (Attrs None None REVERSE)) /\ nth_error (vcells v') 12 = Some (VC [32%N] no_attrs)
               | None => False
               end
  | None => False
  end.
Proof.
  cbv zeta. split; [reflexivity|]. split; [repeat (constructor; [left; reflexivity|]); constructor|]. split; [vm_compute; reflexivity|]. split.
  - apply Prop_Lines.no_trails; [apply Prop_Lines.no_trail_ok; vm_compute; reflexivity|cbn; lia|]. apply Nat.leb_le; vm_compute; reflexivity.
  - vm_compute. auto.
Qed.

Section Windows.
Import M_WinWriter S_WinWriter S_WinScreen M_WinApi S_WinApi S_WinLines P_WinDraw2.
(** C141: the same on Windows. *)
Theorem C141_style_example_console : forall draw shown default E, draws draw -> places draw shown -> (default < 65536)%N -> (65536 <= Z.of_nat (umax E))%Z ->
  ascii_shown shown -> forall i m x s s' F, nth_error style_calls i = Some m -> nth_error style_texts i = Some x ->
  faces default (w_con s) F -> f_attrs F = no_attrs -> w_at s = no_attrs ->
  view_ok (f_view F) -> (cX (v_cur (f_view F)) + Z.of_nat (List.length (in_runs [x])) < cX (v_size (f_view F)))%Z ->
  win_api_run draw default E [OnTerminal m] s = Some s' ->
  exists F', faces default (w_con s') F' /\ f_attrs F' = no_attrs /\ wlaid shown default (in_runs [x]) (f_view F) (f_view F').
Proof. exact win_style_shown. Qed.
(** On the console of C141_console_example, which meets the hypotheses: bold text is bright. *)
Example C141_style_console_shown :
  match win_api_run demo_draw 7 (demo_env (Z.to_nat 65536)) (map OnTerminal (firstn 1 (skipn 1 style_calls))) (Wins no_attrs Prop_WinLines.ex_line) with
  | Some s' => v_cell (c_view (w_con s')) 0 0 = (98, 15)%N /\ v_cell (c_view (w_con s')) 0 9 = (32, 7)%N
  | None => False
  end.
Proof. vm_compute. auto. Qed.
End Windows.
Print Assumptions C141_style_example_console.
