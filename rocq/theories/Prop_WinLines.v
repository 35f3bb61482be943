(** Property theorems for lines of styled text on a terminal (C141): Windows. *)
From Coq Require Import String.
From Verif Require Import Base M_Utf8 S_Utf8 M_Geom M_Attr M_Buf S_Buf M_Writer M_Api S_Api M_WinWriter S_WinWriter S_WinScreen P_WinDraw2 M_WinApi S_WinApi Prop_WinApi
  M_Lines S_Lines S_WinLines P_WinLines.
From Verif Require P_WinWriter.

(** C141 on Windows: any calls that write characters the console shows in one position each and
    choose attributes, on a console whose attributes are those asked for last; there is
    space for the text on the cursor's line.  If no call fails, the console shows the
    characters one after the other from the cursor on, each with the attributes that were
    asked for when it was written, the cursor behind them, and the rest as before. *)
Theorem C141_a_line_of_styled_text_console : forall draw shown default E, draws draw -> places draw shown -> (default < 65536)%N -> (65536 <= Z.of_nat (umax E))%Z ->
  forall cs s s' F, Forall (on_api (win_line_call shown)) cs -> faces default (w_con s) F -> f_attrs F = w_at s -> view_ok (f_view F) ->
  let ms := map (fun c => match c with OnGuard m | OnTerminal m => m end) cs in
  let l := inked ms (f_attrs F) in
  (cX (v_cur (f_view F)) + Z.of_nat (List.length l) < cX (v_size (f_view F)))%Z ->
  win_api_run draw default E cs s = Some s' ->
  exists F', faces default (w_con s') F' /\ f_attrs F' = asked_at_end ms (f_attrs F) /\ wlaid shown default l (f_view F) (f_view F').
Proof. exact win_line_shown. Qed.
Print Assumptions C141_a_line_of_styled_text_console.

(** C141 on Windows: the example programs, as in C141_examples. *)
Theorem C141_examples_console : forall draw shown default E, draws draw -> places draw shown -> (default < 65536)%N -> (65536 <= Z.of_nat (umax E))%Z ->
  ascii_shown shown -> forall ms l s s' F, In (ms, l) example_lines -> faces default (w_con s) F -> f_attrs F = no_attrs -> w_at s = no_attrs ->
  view_ok (f_view F) -> (cX (v_cur (f_view F)) + Z.of_nat (List.length (in_runs l)) < cX (v_size (f_view F)))%Z ->
  win_api_run draw default E (map OnTerminal ms) s = Some s' ->
  exists F', faces default (w_con s') F' /\ f_attrs F' = no_attrs /\ wlaid shown default (in_runs l) (f_view F) (f_view F').
Proof. exact win_examples_shown. Qed.
Print Assumptions C141_examples_console.

(** attribute_test.rs on a console of one line of 200 columns; and "error: error message" comes
    out in bright red, and then in the colours of the console. *)
Definition ex_line : con :=
  Con (View (Coord 200 1) (Coord 0 0) (Rect 0 0 0 199) (fun _ _ => (32, 7)%N)) 7 [] (25%N, true) (repeat (CTake 30) 60).
Example C141_console_example :
  let E := demo_env (Z.to_nat 65536) in
  let s := Wins no_attrs ex_line in
  draws demo_draw /\ places demo_draw demo_shown /\ (65536 <= Z.of_nat (umax E))%Z /\ ascii_shown demo_shown /\
  In (attribute_test, attribute_texts) example_lines /\ faces 7 ex_line (Face (c_view ex_line) no_attrs (25%N, true)) /\ view_ok (c_view ex_line) /\
  (0 + Z.of_nat (List.length (in_runs attribute_texts)) < 200)%Z /\
  match win_api_run demo_draw 7 E (map OnTerminal attribute_test) s with Some _ => true | None => false end = true /\
  match win_api_run demo_draw 7 E (map OnTerminal error_line) s with
  | Some s' => v_cell (c_view (w_con s')) 0 0 = (101, 12)%N /\ v_cell (c_view (w_con s')) 0 4 = (114, 12)%N /\ v_cell (c_view (w_con s')) 0 5 = (58, 7)%N
  | None => False
  end.
Proof.
  cbv zeta. split; [exact demo_draws|]. split; [exact demo_places|]. split; [cbn [umax demo_env]; lia|].
  split; [intros c Hc; unfold demo_shown; destruct (c <? _)%N eqn:Eq; [discriminate|exfalso; lia]|]. split; [now left|].
  split; [split; [reflexivity|]; split; [exact (P_WinWriter.word_shows 7 no_attrs eq_refl)|reflexivity]|].
  split; [vm_compute; intuition discriminate|]. split; [vm_compute; reflexivity|]. split; vm_compute; auto.
Qed.
