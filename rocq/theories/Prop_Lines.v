(** Property theorems for lines of styled text on a terminal (C141). *)
From Coq Require Import String.
From Verif Require Import Base M_Utf8 S_Utf8 M_Geom S_Geom M_Attr M_Buf S_Buf M_Writer S_Tty S_Writer S_Emu P_Emu P_Screen5 P_Buf3 M_Api S_Api M_Lines S_Lines P_Lines.

(** C141: any calls that write characters of one or two columns and choose attributes, on a
    terminal that implements its terminfo entry and shows [v], of which the attributes are
    those asked for last; there is space for the text on the cursor's line.  If no call
    fails, the terminal shows (once the output has reached it) the characters one after
    the other from the cursor on, each with the attributes that were asked for when it was
    written, the cursor behind them, and the rest as before. *)
Theorem C141_a_line_of_styled_text : forall E C K t0 cs, implements E C K -> full_caps C ->
  forall w w' v, Forall (on_api (line_call E)) cs ->
  whole_writes (script w) -> style_ok (sty (wat w)) ->
  look K (feed K t0 (stream w)) = Some v -> vattrs v = wat w ->
  let ms := map (fun c => match c with OnGuard m | OnTerminal m => m end) cs in
  let x := row E ms (vattrs v) in
  space (length x) v -> api_run C cs w = Some w' ->
  exists v', look K (feed K t0 (stream w')) = Some v' /\ vsize v' = vsize v /\ vattrs v' = asked_at_end ms (vattrs v) /\
    vcur v' = Cursor (line (vcur v)) (column (vcur v) + length x) /\
    vcells v' = splice (cell_no (vsize v) (vcur v)) x (vcells v).
Proof. exact line_shown. Qed.
Print Assumptions C141_a_line_of_styled_text.

(** C141: examples/attribute_test.rs, and the two messages of examples/color.rs, on a terminal
    on which no attributes are in force and the device takes everything: they show the texts
    with the attributes that they name, and leave no attributes behind. *)
Theorem C141_examples : forall E C K t0, implements E C K -> full_caps C -> ascii_plain E ->
  forall ms l w w' v, In (ms, l) example_lines -> perfect (script w) -> obuf w = [] -> wat w = no_attrs ->
  look K (feed K t0 (dev w)) = Some v -> vattrs v = no_attrs -> space (length (in_cells l)) v ->
  api_run C (map OnTerminal ms) w = Some w' ->
  exists v', look K (feed K t0 (dev w')) = Some v' /\ vsize v' = vsize v /\ vattrs v' = no_attrs /\
    vcur v' = Cursor (line (vcur v)) (column (vcur v) + length (in_cells l)) /\
    vcells v' = splice (cell_no (vsize v) (vcur v)) (in_cells l) (vcells v).
Proof. exact examples_shown. Qed.
Print Assumptions C141_examples.

(** On the ANSI terminal of S_Emu.v, attribute_test.rs in a line of 200 columns; and a line of
    9 columns in which "xy" is written from the second column on, then a character of two
    columns in blue, and then "z" underlined. *)
Lemma demo_ascii n : ascii_plain (demo_env n).
Proof.
  intros c Hc.
  assert (H : cwidth (demo_env n) c = Some 1 /\ combining (demo_env n) c = false).
  { cbn [demo_env combining cwidth]. unfold demo_width, is_scalar. destruct (_ || _) eqn:Eq; [exfalso; lia|].
    replace ((768 <=? c) && (c <=? 879))%N with false by lia. now replace ((65281 <=? c) && (c <=? 65376))%N with false by lia. }
  destruct H as [H1 H2]. split; [|exact H1]. split; [unfold scalar, is_scalar; lia|]. unfold printable, TAB, CR, LF. repeat split; try lia; auto.
Qed.
Lemma no_trails n v : (forall c, In c (vcells v) -> c <> VTrail) -> line (vcur v) < lines (vsize v) -> column (vcur v) + n <= columns (vsize v) -> space n v.
Proof. intros H H1 H2. split; [exact H1|]. split; [exact H2|]. intros j _ Hj. exact (H _ (nth_error_In _ _ Hj) eq_refl). Qed.
Definition has_no_trail (v : view) : bool := forallb (fun c => match c with VTrail => false | _ => true end) (vcells v).
Lemma no_trail_ok v : has_no_trail v = true -> forall c, In c (vcells v) -> c <> VTrail.
Proof. intros H c Hc ->. unfold has_no_trail in H. rewrite forallb_forall in H. discriminate (H _ Hc). Qed.

Example C141_example_program :
  let E := demo_env 1000 in
  let w := writer_new 64 (repeat WAll 99) in
  let v := View (Size 1 200) (repeat (VC [32%N] no_attrs) 200) (Cursor 0 0) no_attrs true in
  implements E ansi_cfg (ansi_tty E) /\ full_caps ansi_cfg /\ ascii_plain E /\ In (attribute_test, attribute_texts) example_lines /\
  perfect (script w) /\ obuf w = [] /\ wat w = no_attrs /\
  look (ansi_tty E) (feed (ansi_tty E) (emu_new (Size 1 200)) (dev w)) = Some v /\ space (length (in_cells attribute_texts)) v /\
  exists w', api_run ansi_cfg (map OnTerminal attribute_test) w = Some w'.
Proof.
  cbv zeta. split; [apply ansi_implements, demo_env_ok|]. split; [split; [apply ansi_all_caps|split; reflexivity]|]. split; [apply demo_ascii|].
  split; [now left|]. split; [repeat (constructor; [left; reflexivity|]); constructor|]. split; [reflexivity|]. split; [reflexivity|].
  split; [vm_compute; reflexivity|]. split.
  - apply no_trails; [apply no_trail_ok; vm_compute; reflexivity|cbn; lia|]. apply Nat.leb_le; vm_compute; reflexivity.
  - assert (H : match api_run ansi_cfg (map OnTerminal attribute_test) (writer_new 64 (repeat WAll 99)) with Some _ => true | None => false end = true) by (vm_compute; reflexivity).
    destruct (api_run _ _ _) as [w'|]; [now exists w'|discriminate].
Qed.

Example C141_example_line :
  let E := demo_env 1000 in
  let cs := [OnGuard (TWriteStr [120; 121]%N); OnGuard (TSetFg (Some Blue)); OnGuard (TWriteChar 65313%N); OnGuard TClearAttributes;
             OnGuard TUnderline; OnGuard (TWriteFmt [[122%N]]); OnGuard TFlush] in
  let w := writer_new 64 (repeat WAll 9) in
  let v := View (Size 1 9) (repeat (VC [32%N] no_attrs) 9) (Cursor 0 0) no_attrs true in
  Forall (on_api (line_call E)) cs /\ whole_writes (script w) /\
  look (ansi_tty E) (feed (ansi_tty E) (emu_new (Size 1 9)) (stream w)) = Some v /\
  row E (map (fun c => match c with OnGuard m | OnTerminal m => m end) cs) no_attrs =
    [VC [120%N] no_attrs; VC [121%N] no_attrs; VC [65313%N] (Attrs (Some Blue) None 0%N); VTrail; VC [122%N] (Attrs None None UNDERLINE)] /\
  space 5 v /\ match api_run ansi_cfg cs w with Some _ => True | None => False end.
Proof.
  cbv zeta. split.
  { repeat constructor; unfold letter, scalar, printable; cbn; intuition discriminate. }
  split; [repeat (apply Forall_cons; [constructor|]); apply Forall_nil|]. split; [vm_compute; reflexivity|]. split; [vm_compute; reflexivity|].
  split; [apply no_trails; [apply no_trail_ok; vm_compute; reflexivity|cbn; lia|cbn; lia]|]. vm_compute. exact I.
Qed.
