(** Property theorems for panics on Windows (C108). *)
From Verif Require Import Base M_Utf8 M_Geom S_Geom M_Attr M_Buf S_Buf P_Buf3 M_Signal M_Util M_Input M_Writer M_Screen M_Prepare M_Reader
  M_WinWriter M_WinReader S_WinReader S_WinWriter M_WinScreen S_WinScreen P_WinScreen S_Overrun S_NoPanic S_WinNoPanic P_WinNoPanic P_WinNoPanic2 Prop_WinScreen.
Local Open Scope nat_scope.

(** C108: on Windows each writing method of a terminal returns, with success or an error, for
    all arguments and all answers of the console. *)
Theorem C108_terminal :
  forall draw d E o s, keeps_order draw -> view_ok (c_view (w_con s)) ->
  exists s', view_ok (c_view (w_con s')) /\ (run_win draw d E o s = Ret s' tt \/ exists e, run_win draw d E o s = Fail s' e).
Proof. exact terminal_returns. Qed.
Print Assumptions C108_terminal.

(** Waiting and reading panic only for a timeout that overflows (C59), whatever records
    come; preparing and restoring always return. *)
Theorem C108_input :
  forall E t len s,
  (win_wait_event t s = Panic -> win_overflows t) /\ (win_read_event E t s = Panic -> win_overflows t) /\
  (win_read_raw len t s = Panic -> win_overflows t) /\ (win_read_raw_event len t s = Panic -> win_overflows t).
Proof. exact terminal_reads. Qed.
Print Assumptions C108_input.
Theorem C108_preparing :
  forall cfg st s,
  win_prepare cfg s <> Panic /\ win_prepare cfg s <> Blocked /\ win_restore st s <> Panic /\ win_restore st s <> Blocked.
Proof. exact terminal_prepares. Qed.
Print Assumptions C108_preparing.

(** C108: what can make a call of a screen panic, after any history of the program and the
    console: drawing panics exactly if [go] (C14) says so for the screen's size and cursor; a
    refresh only if the screen has no cell; waiting and reading only for a timeout that
    overflows or a size record that the buffer cannot take.  Only waiting and reading can
    fail to return otherwise; dropping the screen returns. *)
Theorem C108_causes :
  forall draw E cfg t0 t1 s l s', env_ok E -> keeps_order draw -> (32767 <= Z.of_nat (umax E))%Z ->
  displayed t0 -> view_ok (c_view (w_con (t_w t0))) -> win_screen_new E cfg t0 = Ret t1 s ->
  Forall act_ok l -> wacts draw E l s = Some s' ->
  (forall b, run_wsop draw E (SBuffer b) s' = Panic <-> go E (screen_at s') b = None) /\
  (forall o, act_ok (WCall o) -> run_wsop draw E o s' = Panic -> win_reason E (t_in t0) (screen_at s') o) /\
  (forall o, act_ok (WCall o) -> run_wsop draw E o s' = Blocked -> waiting o) /\
  exists t', win_screen_drop s' = Ret t' tt.
Proof. intros draw E cfg t0 t1 s l s' HE Hd Hu. exact (win_causes draw E HE Hd Hu cfg t0 t1 s l s'). Qed.
Print Assumptions C108_causes.

(** Making a screen returns, unless the console's buffer has more cells than a [usize] can
    count. *)
Theorem C108_creation :
  forall E cfg t, win_screen_new E cfg t <> Blocked /\
  (win_screen_new E cfg t = Panic ->
   let v := c_view (w_con (t_w t)) in umax E < total (Size (as_usize E (cY (v_size v))) (as_usize E (cX (v_size v))))).
Proof. exact new_returns. Qed.
Print Assumptions C108_creation.

(** C108: if the console's buffer has two columns or more, and all size records do, no call
    of a program panics that goes down by less than [usize::MAX] lines and gives no timeout
    that overflows. *)
Theorem C108_never :
  forall draw E cfg t0 t1 s l o more s', env_ok E -> keeps_order draw -> (32767 <= Z.of_nat (umax E))%Z ->
  displayed t0 -> view_ok (c_view (w_con (t_w t0))) -> (2 <= cX (v_size (c_view (w_con (t_w t0)))))%Z ->
  decent_records E (t_in t0) -> win_screen_new E cfg t0 = Ret t1 s ->
  Forall act_ok (l ++ WCall o :: more) -> modest_acts E (l ++ WCall o :: more) -> Forall modest_call (l ++ WCall o :: more) ->
  wacts draw E l s = Some s' -> run_wsop draw E o s' <> Panic.
Proof. intros draw E cfg t0 t1 s l o more s' HE Hd Hu. exact (win_never draw E HE Hd Hu cfg t0 t1 s l o more s'). Qed.
Print Assumptions C108_never.

(** A program that meets the hypotheses; the console's buffer grows while it runs, and some
    calls fail. *)
Definition wn_view : view := View (Coord 5 40) (Coord 4 30) (Rect 10 20 0 4) (fun _ _ => (65, 7))%N.
Definition wn_term : wterm := demo_term (repeat (CTake 1) 20 ++ [CFail 6; CTake 0]) [].
Definition wn_acts : list wact :=
  [WCall (SBuffer (BWriteStr [104; 10; 65281])); WCall SRefresh; WConsole wn_view; WCall SRefresh; WCall (SReadEvent None); WCall SRefresh;
   WCall (SCursorMode CInvisible); WCall (SWait (Some (Duration 1 0))); WCall (SReadRaw 4 (Some (Duration 3 0))); WCall (SBuffer (BWriteStyledAt (Cursor 1 4) no_attrs [65282])); WCall SRefresh]%N.
Lemma demo_draw_order : keeps_order demo_draw.
Proof.
  intros l a. unfold demo_draw. induction l as [|u l IH]; intros v Hv; cbn [fold_left]; [exact Hv|]. apply IH.
  unfold view_ok in *. cbn [v_size v_cur v_win]. destruct (Z.ltb_spec (cX (v_cur v) + 1) (cX (v_size v))); cbn [cX cY]; lia.
Qed.
Example C108_example_hyps :
  env_ok demo_env_w /\ keeps_order demo_draw /\ (32767 <= Z.of_nat (umax demo_env_w))%Z /\
  displayed wn_term /\ view_ok (c_view (w_con (t_w wn_term))) /\ decent_records demo_env_w (t_in wn_term) /\
  Forall act_ok wn_acts /\ modest_acts demo_env_w wn_acts /\ Forall modest_call wn_acts.
Proof.
  split; [apply demo_env_ok|]. split; [exact demo_draw_order|]. split; [vm_compute; discriminate|].
  split; [split; [reflexivity|cbn; intuition discriminate]|]. split; [vm_compute; intuition discriminate|]. split; [|split; [|split]].
  - intros z (p & H & ->). assert (Hp : p = Coord 5 2) by (cbn in H; intuition congruence).
    subst p. unfold as_usize. cbn [cX cY lines columns total]. rewrite !Z.mod_small by (unfold demo_env_w; cbn; lia).
    unfold total. cbn [lines columns]. unfold demo_env_w. cbn [umax demo_env]. lia.
  - repeat constructor; cbn; lia.
  - unfold modest_acts. unfold demo_env_w. cbn [umax demo_env]. cbn. lia.
  - repeat constructor; intros (d & [= <-] & H); vm_compute in H; destruct H as [H|H]; apply H; reflexivity.
Qed.
Example C108_example :
  match win_screen_new demo_env_w default_config wn_term with
  | Ret _ s => match wacts demo_draw demo_env_w wn_acts s with
               | Some s' => bsize (g_sb s') = Size 2 5 /\ exists t', win_screen_drop s' = Ret t' tt
               | None => False
               end
  | _ => False
  end.
Proof. vm_compute. split; [reflexivity|]. eexists. reflexivity. Qed.

(** The causes do make calls panic: a size record without columns; a refresh after one
    without lines; a timeout; a double-width character on one column. *)
Definition told (p : coord) : wterm :=
  with_in (WSys (WReader false 0) 0 NO_SIGNAL 0x1f7 0 [SizeRec p] None [] [] []) (demo_term [] []).
Definition wn_panics (p : coord) (l : list wact) (o : wsop) : bool :=
  match win_screen_new demo_env_w default_config (told p) with
  | Ret _ s => match wacts demo_draw demo_env_w l s with
               | Some s' => match run_wsop demo_draw demo_env_w o s' with Panic => true | _ => false end
               | None => false
               end
  | _ => false
  end.
Example C108_example_panics :
  wn_panics (Coord 0 3) [] (SReadEvent None) = true /\ wn_panics (Coord 0 3) [] (SReadRawEvent 3 None) = true /\
  wn_panics (Coord 5 0) [WCall (SReadEvent None)] SRefresh = true /\
  wn_panics (Coord 1 3) [WCall (SReadEvent None)] (SBuffer (BWriteAt (Cursor 1 0) [65281]%N)) = true /\
  wn_panics (Coord 5 2) [] (SWait (Some (Duration (2 ^ 62) 0))) = true.
Proof. vm_compute. repeat split. Qed.
