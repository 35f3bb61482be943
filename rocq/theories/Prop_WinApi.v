(** C99: the public output methods on Windows do what their documentation says. *)
From Verif Require Import Base M_Utf8 S_Utf8 M_Geom M_Attr M_Buf M_Writer M_Api M_WinWriter S_WinWriter P_WinView M_WinApi S_WinApi P_WinApi S_Buf.
From Verif Require S_WinScreen.
Local Open Scope Z_scope.

(** C99.  A program calls any methods of [TerminalWriteGuard] and [Terminal] on a console
    with the face [F].  If the calls succeed, the console has the face that the effects
    the documentation gives for the calls, one after the other, make of [F]. *)
Theorem C99_methods_do_what_they_say :
  forall draw default E, draws draw -> (default < 65536)%N -> 65536 <= Z.of_nat (umax E) ->
  forall cs s s' F, Forall call_scalar cs ->
    faces default (w_con s) F -> f_attrs F = w_at s -> view_ok (f_view F) ->
    win_api_run draw default E cs s = Some s' ->
    exists F', faces default (w_con s') F' /\ win_effects draw default cs F F' /\ f_attrs F' = w_at s' /\ view_ok (f_view F').
Proof. exact win_api_does. Qed.
Print Assumptions C99_methods_do_what_they_say.

(** C99.  As long as the console does not fail, every call succeeds, except for moving
    over the upper or left edge (C61), which fails and changes nothing.  No call panics
    or hangs. *)
Theorem C99_methods_succeed :
  forall draw default E, (default < 65536)%N -> 65536 <= Z.of_nat (umax E) ->
  forall c s, view_ok (c_view (w_con s)) -> no_failure (c_answers (w_con s)) ->
    match win_api_run1 draw default E c s with
    | Ret s' _ => ~ over_edge c (c_view (w_con s)) /\ no_failure (c_answers (w_con s'))
    | Fail s' e => over_edge c (c_view (w_con s)) /\ e = ERROR_INVALID_PARAMETER /\
        Face (c_view (w_con s')) (w_at s') (c_cursor (w_con s')) = Face (c_view (w_con s)) (w_at s) (c_cursor (w_con s)) /\
        c_attr (w_con s') = c_attr (w_con s)
    | _ => False
    end.
Proof. exact call_fine. Qed.
Print Assumptions C99_methods_succeed.

Lemma demo_draws : draws S_WinScreen.demo_draw.
Proof.
  split; [reflexivity|intros; apply fold_left_app|].
  intros l a. induction l as [|u l IH]; intros v Hv; [auto|].
  change (S_WinScreen.demo_draw (u :: l) a v) with (S_WinScreen.demo_draw l a (S_WinScreen.demo_draw [u] a v)).
  assert (H : view_ok (S_WinScreen.demo_draw [u] a v) /\ v_size (S_WinScreen.demo_draw [u] a v) = v_size v).
  { cbn [S_WinScreen.demo_draw fold_left]. cbv zeta. unfold view_ok in *. cbn [v_size v_cur v_win].
    destruct (Z.ltb_spec (cX (v_cur v) + 1) (cX (v_size v))); cbn [cX cY]; repeat split; auto; lia. }
  destruct H as (H1 & H2). destruct (IH _ H1) as (K1 & K2). split; [exact K1|congruence].
Qed.

(** A console of 2 lines and 5 columns, all of it visible, which sometimes takes less than
    it is given. *)
Definition ex_console : con :=
  Con (View (Coord 5 2) (Coord 3 1) (Rect 0 1 0 4) (fun _ _ => (88, 7)%N)) 7 [] (25%N, true) [CTake 1; CTake 9; CTake 2; CTake 9; CTake 9; CTake 1].
Definition ex_calls : list api_call :=
  [OnTerminal TClearScreen; OnGuard (TSetCursorMode CInvisible); OnGuard TBold; OnGuard (TSetFg (Some Red));
   OnGuard (TWriteFmt [[97; 98]; [99]]%N); OnGuard (TMoveDown 7); OnGuard TUnderline;
   OnTerminal (TWriteStyled None (Some Blue) (Some REVERSE) [100]%N); OnTerminal (TMoveLeft 0); OnTerminal (TMoveLeft 2);
   OnGuard (TSetStyle None); OnGuard (TWriteChar 101%N); OnGuard TMoveToFirstColumn; OnTerminal (TMoveUp 1);
   OnGuard TFlush].

Example C99_example :
  let E := demo_env (Z.to_nat 65536) in
  let s := Wins no_attrs ex_console in
  draws S_WinScreen.demo_draw /\ 65536 <= Z.of_nat (umax E) /\ Forall call_scalar ex_calls /\
  faces 7 ex_console (Face (c_view ex_console) no_attrs (25%N, true)) /\ view_ok (c_view ex_console) /\ no_failure (c_answers ex_console) /\
  match win_api_run S_WinScreen.demo_draw 7 E ex_calls s with
  | Some s' =>
      let v := c_view (w_con s') in
      map (fun y => map (v_cell v y) [0; 1; 2; 3; 4]) [0; 1]
      = [[(97, 12); (98, 12); (99, 12); (32, 7); (32, 7)]; [(32, 7); (32, 7); (101, 7); (100, 113); (32, 7)]]%N /\
      v_cur v = Coord 0 0 /\ c_cursor (w_con s') = (1%N, false) /\ c_attr (w_con s') = 7%N
  | None => False
  end /\
  match win_api_run1 S_WinScreen.demo_draw 7 E (OnGuard (TMoveUp 2)) s with Fail _ e => e = ERROR_INVALID_PARAMETER | _ => False end.
Proof.
  cbv zeta. split; [exact demo_draws|]. split; [cbn [umax demo_env]; lia|].
  split; [repeat constructor; unfold scalar; cbn; lia|].
  split; [split; [reflexivity|]; split; [exact (P_WinWriter.word_shows 7 no_attrs eq_refl)|reflexivity]|].
  split; [vm_compute; intuition discriminate|]. split; [repeat econstructor|].
  split; vm_compute; auto.
Qed.
