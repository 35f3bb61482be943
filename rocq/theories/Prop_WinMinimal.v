(** Property theorems for what a refresh writes on Windows (C125). *)
From Verif Require Import Base M_Utf8 S_Utf8 M_Geom S_Geom M_Attr M_Signal M_Util M_Input M_Buf S_Buf M_Writer M_Prepare M_Reader
  M_WinWriter M_WinReader S_WinReader M_WinScreen S_WinScreen P_WinDraw2 S_WinMinimal P_WinMinimal.
From Verif Require S_WinWriter S_Screen P_Screen5.

(** C125: a refresh right after a successful one makes no call to the console: it leaves
    everything, the console included, as it is. *)
Theorem C125_second_refresh_is_silent : forall draw E s s' u,
  win_refresh draw E s = Ret s' u -> win_refresh draw E s' = Ret s' tt.
Proof. exact wrefresh_twice. Qed.
Print Assumptions C125_second_refresh_is_silent.

(** C125: in any history of drawing, cursor modes, refreshes and resizes, whatever the
    console does with text, a successful refresh sends it the characters of the cells that
    changed since the last refresh, each once and in order, with the attributes of its
    cell, and no other text.  Double-width characters do not overlap or cross the end of a
    line. *)
Theorem C125_only_changed_cells_are_written : forall draw E careful, env_ok E -> env_chars E ->
  (32767 <= Z.of_nat (umax E))%Z -> forall s s' u, whistory draw E careful s -> S_Screen.wides_fit E (g_sb s) ->
  win_refresh draw E s = Ret s' u ->
  exists x, heard s' = heard s ++ x /\ S_WinWriter.typed (t_default (g_t s)) (changes E (g_sb s)) x.
Proof. intros draw E careful HE HC HU s s' u. exact (refresh_minimal_ret draw E careful HE HU s s' u HC). Qed.
Print Assumptions C125_only_changed_cells_are_written.

(** C125: and a refresh that fails has sent an initial part of that. *)
Theorem C125_failure_writes_a_prefix : forall draw E careful, env_ok E -> env_chars E ->
  (32767 <= Z.of_nat (umax E))%Z -> forall s s' e, whistory draw E careful s -> S_Screen.wides_fit E (g_sb s) ->
  win_refresh draw E s = Fail s' e ->
  exists x y, heard s' = heard s ++ x /\ S_WinWriter.typed (t_default (g_t s)) (changes E (g_sb s)) (x ++ y).
Proof. intros draw E careful HE HC HU s s' e. exact (refresh_minimal_fail draw E careful HE HU s s' e HC). Qed.
Print Assumptions C125_failure_writes_a_prefix.

(** A screen of 2 lines and 4 columns; "abcd" is written and refreshed; then a red "x" is
    put over "c" and a "y", with an accent, in the second line.  The refresh sends these
    two alone. *)
Definition ex_1 : wscr := wrote (some_screen (some_view 4 2 0 1 SPACE) []) (BWriteStr [97; 98; 99; 100]%N).
Definition ex_2 : wscr := done (win_refresh demo_draw wide_env ex_1).
Definition ex_3 : wscr := wrote (wrote (wrote (wrote ex_2 (BSetFg (Some Red))) (BWriteAt (Cursor 0 2) [120]%N)) (BSetFg None))
  (BWriteAt (Cursor 1 1) [121; 769]%N).
Definition ex_4 : wscr := done (win_refresh demo_draw wide_env ex_3).

(** On another console the first refresh fails as the third letter is written. *)
Definition fx_1 : wscr := wrote (some_screen (some_view 4 2 0 1 SPACE) (repeat (CTake 9) 9 ++ [CFail 5])) (BWriteStr [97; 98; 99; 100]%N).
Definition fx_2 : wscr := done (win_refresh demo_draw wide_env fx_1).

Definition none_wide (s : wscr) : bool := forallb (fun i => negb (wide_at wide_env (g_sb s) i)) (seq 0 (length (buffer (g_sb s)))).
Lemma none_wide_fit s : none_wide s = true -> S_Screen.wides_fit wide_env (g_sb s).
Proof.
  unfold none_wide. rewrite forallb_forall. intros H i Hi. exfalso.
  destruct (Nat.ltb_spec i (length (buffer (g_sb s)))) as [L|L].
  - specialize (H i ltac:(apply in_seq; lia)). rewrite Hi in H. discriminate H.
  - unfold wide_at, cell_at in Hi. apply nth_error_None in L. rewrite L in Hi. discriminate Hi.
Qed.

Example C125_example :
  env_ok wide_env /\ env_chars wide_env /\ (32767 <= Z.of_nat (umax wide_env))%Z /\
  whistory demo_draw wide_env fine ex_3 /\ S_Screen.wides_fit wide_env (g_sb ex_3) /\
  win_refresh demo_draw wide_env ex_3 = Ret ex_4 tt /\
  changes wide_env (g_sb ex_3) = [(120, Attrs (Some Red) None 0); (121, no_attrs); (769, no_attrs)]%N /\
  heard ex_4 = heard ex_3 ++ [(120, 4); (121, 7); (769, 7)]%N /\
  win_refresh demo_draw wide_env ex_4 = Ret ex_4 tt /\
  whistory demo_draw wide_env fine fx_1 /\ S_Screen.wides_fit wide_env (g_sb fx_1) /\
  (exists e, win_refresh demo_draw wide_env fx_1 = Fail fx_2 e) /\
  heard fx_1 = [] /\ heard fx_2 = [(97, 7); (98, 7)]%N /\
  map fst (changes wide_env (g_sb fx_1)) = [97; 98; 99; 100]%N.
Proof.
  split; [exact wide_env_ok|]. split; [apply P_Screen5.demo_chars|]. split; [exact wide_env_max|].
  assert (H1 : whistory demo_draw wide_env fine ex_1).
  { apply write_history; [apply some_history|intros sz Q; discriminate Q|]; [unfold S_WinWriter.view_ok; cbn; lia|vm_compute; reflexivity|vm_compute; reflexivity]. }
  assert (H2 : whistory demo_draw wide_env fine ex_2).
  { apply (WH_refresh _ _ _ ex_1 _ tt H1); [|apply done_ok; vm_compute; reflexivity].
    split; [apply ascii_one; vm_compute; reflexivity|intros Q; vm_compute in Q; discriminate Q]. }
  split; [do 4 (apply write_history; [|intros sz Q; discriminate Q|vm_compute; reflexivity]); exact H2|].
  split; [apply none_wide_fit; vm_compute; reflexivity|].
  split; [apply done_ok; vm_compute; reflexivity|]. split; [vm_compute; reflexivity|]. split; [vm_compute; reflexivity|].
  split; [apply (wrefresh_twice demo_draw wide_env ex_3 ex_4 tt); apply done_ok; vm_compute; reflexivity|].
  split; [apply write_history; [apply some_history|intros sz Q; discriminate Q|]; [unfold S_WinWriter.view_ok; cbn; lia|vm_compute; reflexivity|vm_compute; reflexivity]|].
  split; [apply none_wide_fit; vm_compute; reflexivity|].
  split; [apply done_fail; vm_compute; reflexivity|].
  split; [vm_compute; reflexivity|]. split; vm_compute; reflexivity.
Qed.
