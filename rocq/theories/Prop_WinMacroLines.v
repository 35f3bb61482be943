(** Property theorems for what [term_write!] shows (C142): Windows. *)
From Coq Require Import String.
From Verif Require Import Base M_Utf8 S_Utf8 M_Geom S_Geom M_Attr M_Buf S_Buf M_Writer M_Macros S_Macros M_Api S_Api M_ScreenApi M_WinWriter S_WinWriter M_WinScreen S_WinScreen P_WinDraw2
  S_WinCanvas M_WinApi S_WinApi Prop_WinApi M_WinMacros M_Lines S_Lines S_WinLines S_MacroLines P_WinMacroLines Prop_WinLines Prop_MacroLines Prop_WinExamples.
From Verif Require S_Canvas P_WinWriter.
Local Open Scope nat_scope.

(** C142 on Windows: [term_write!] of a [Terminal] or its guard, as in C142_terminal. *)
Theorem C142_terminal_console : forall (U : Type) draw default E shown, S_WinApi.draws draw -> places draw shown -> (default < 65536)%N -> (65536 <= Z.of_nat (umax E))%Z ->
  forall l u qs u1 s F u' s', l <> [] -> answers U l u qs u1 -> Forall (win_line_call shown) (map as_call qs) ->
  faces default (w_con s) F -> f_attrs F = w_at s -> view_ok (f_view F) ->
  let ms := map as_call qs in
  let x := inked ms (f_attrs F) in
  (cX (v_cur (f_view F)) + Z.of_nat (List.length x) < cX (v_size (f_view F)))%Z ->
  win_term_write U draw default E l (u, s) = Some (Ret (u', s') tt) ->
  u' = u1 /\ exists F', faces default (w_con s') F' /\ f_attrs F' = asked_at_end ms (f_attrs F) /\ wlaid shown default x (f_view F) (f_view F').
Proof. exact win_macro_line. Qed.
Print Assumptions C142_terminal_console.

(** C142 on Windows: [term_write!] of a [Screen], as in C142_screen; in any history of calls
    (C100), if the console's calls do not fail. *)
Theorem C142_screen_console : forall (U : Type) draw E shown, places draw shown -> env_ok E -> (32767 <= Z.of_nat (umax E))%Z ->
  forall l u qs u1 s k r o, l <> [] -> answers U l u qs u1 -> wpainted draw shown E s k r -> (r = true -> covers (sees s)) ->
  Forall (single E shown) (concat (map (fun q => S_Canvas.method_text (as_drawing q)) qs)) ->
  no_failure (c_answers (w_con (t_w (g_t s)))) ->
  win_screen_write U draw E l (u, s) = Some o -> o <> Panic ->
  exists s', o = Ret (u1, s') tt /\
    let k' := S_Canvas.draws E (map as_drawing qs) k in
    wdisplays shown (t_default (g_t s)) (sees s') k' /\
    v_cur (sees s') = Coord (Z.of_nat (column (S_Canvas.pen_goal k'))) (Z.of_nat (line (S_Canvas.pen_goal k'))).
Proof. exact win_macro_canvas. Qed.
Print Assumptions C142_screen_console.

(** The element list of C142's example, on a console of 200 columns, and on a screen of 2 lines
    and 26 columns. *)
Example C142_example_console :
  let E := demo_env (Z.to_nat 65536) in
  let s := Wins no_attrs ex_line in
  Forall (win_line_call demo_shown) (map as_call answer_asks) /\ List.length (inked (map as_call answer_asks) no_attrs) = 17 /\
  match win_term_write nat demo_draw 7 E answer (0, s) with
  | Some (Ret (1, s') tt) => v_cell (c_view (w_con s')) 0 14 = (32, 7)%N /\ v_cell (c_view (w_con s')) 0 15 = (52, 15)%N /\ v_cur (c_view (w_con s')) = Coord 17 0
  | _ => False
  end.
Proof.
  cbv zeta. split.
  { assert (H : forall c, (32 <= c < 127)%N -> win_letter demo_shown c).
    { intros c Hc. split; [unfold scalar, is_scalar; lia|]. unfold demo_shown. destruct (c <? _)%N eqn:Eq; [discriminate|exfalso; lia]. }
    repeat constructor; apply H; vm_compute; intuition discriminate. }
  split; [reflexivity|]. vm_compute. auto.
Qed.
Example C142_example_screen_console :
  wpainted demo_draw demo_shown wide_env ex_wide (S_Canvas.blank_canvas (Size 2 26)) false /\
  Forall (single wide_env demo_shown) (concat (map (fun q => S_Canvas.method_text (as_drawing q)) answer_asks)) /\
  no_failure (c_answers (w_con (t_w (g_t ex_wide)))) /\
  match win_screen_write nat demo_draw wide_env answer (0, ex_wide) with
  | Some (Ret (1, s') tt) => v_cell (sees s') 0 15 = (52, 15)%N /\ v_cur (sees s') = Coord 17 0
  | _ => False
  end.
Proof.
  split; [exact ex_wide_painted|]. split; [|split].
  - apply Forall_forall. intros c Hc. vm_compute in Hc. repeat (destruct Hc as [<-|Hc]; [do 3 right; split; [reflexivity|]; split; [intros (_ & Hw); discriminate Hw|intros _; discriminate]|]). destruct Hc.
  - repeat econstructor.
  - vm_compute. auto.
Qed.
