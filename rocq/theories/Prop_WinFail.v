(** Property theorems for refreshes of a Windows screen that fail (C128). *)
From Verif Require Import Base M_Utf8 S_Utf8 M_Geom S_Geom M_Attr M_Signal M_Util M_Input M_Buf S_Buf M_Writer M_Prepare M_Reader
  M_WinWriter M_WinReader S_WinReader M_WinScreen S_WinScreen P_WinDraw P_WinDraw2 M_ScreenApi S_WinCanvas P_WinCanvas S_WinFail P_WinFail.
From Verif Require S_WinWriter S_Canvas.

(** C128 says that the next successful refresh shows the whole canvas, whatever refreshes
    failed before.  What holds: each failed refresh since the size last changed costs at most
    one position, and this only as long as the canvas still has there what it had when that
    refresh failed.  Missing: refreshes that fail when they set attributes, or while text of
    more than one UTF-16 unit is on the screen, or after the clearing in the first refresh at
    a new size. *)
Theorem C128_all_but_lost_partial : forall draw shown E, places draw shown -> env_ok E ->
  (32767 <= Z.of_nat (umax E))%Z -> forall s k r l, struck draw shown E s k r l ->
  forall s' u, (r = true -> covers (sees s)) -> win_refresh draw E s = Ret s' u ->
    size_of_view (sees s') = S_Canvas.ksize k /\
    v_cur (sees s') = Coord (Z.of_nat (column (S_Canvas.pen_goal k))) (Z.of_nat (line (S_Canvas.pen_goal k))) /\
    exists lost, length lost = length l /\
      forall p, in_bounds p (S_Canvas.ksize k) ->
        shows_ink shown (t_default (g_t s)) (sees s') k p \/
        exists k0, In (p, k0) (combine lost l) /\
          S_Canvas.ink k0 (line p) (column p) = S_Canvas.ink k (line p) (column p).
Proof. intros draw shown E HP HE HU s k r l H. exact (struck_shows draw shown E HP HE s k r l HU H). Qed.
Print Assumptions C128_all_but_lost_partial.

(** One position may be lost. *)
Theorem C128_lost_refuted : exists draw shown E s k l s' u p,
  places draw shown /\ env_ok E /\ (32767 <= Z.of_nat (umax E))%Z /\
  struck draw shown E s k false l /\ win_refresh draw E s = Ret s' u /\
  in_bounds p (S_Canvas.ksize k) /\ ~ shows_ink shown (t_default (g_t s)) (sees s') k p.
Proof. exact failing_loses. Qed.
Print Assumptions C128_lost_refuted.

(** A refresh that fails after the clearing, the first at a new size, may cost more than one
    position, although nothing but moving the cursor failed. *)
Theorem C128_after_resize_refuted : exists draw shown E s k s1 e s' u p q,
  places draw shown /\ env_ok E /\ (32767 <= Z.of_nat (umax E))%Z /\
  struck draw shown E s k true [] /\ covers (sees s) /\
  (forall p, in_bounds p (S_Canvas.ksize k) -> one_unit (fst (S_Canvas.ink k (line p) (column p)))) /\
  win_refresh draw E s = Fail s1 e /\ in_step s1 /\ win_refresh draw E s1 = Ret s' u /\
  in_bounds p (S_Canvas.ksize k) /\ in_bounds q (S_Canvas.ksize k) /\ p <> q /\
  ~ shows_ink shown (t_default (g_t s)) (sees s') k p /\ ~ shows_ink shown (t_default (g_t s)) (sees s') k q.
Proof. exact resized_fails. Qed.
Print Assumptions C128_after_resize_refuted.

(** "ab" is written, the "b" is refused by the console, "c" is written and the screen
    refreshed: the console shows "a c".  Then the console changes its size and shows other
    text; clearing it fails once; the next refresh shows everything. *)
Definition ex_v : view := some_view 4 1 0 0 120.
Definition ex_5 : wscr := done (win_update_size wide_env (Size 1 4) (seeing ex_v lost_4)).
Example C128_example :
  places demo_draw demo_shown /\ env_ok wide_env /\ (32767 <= Z.of_nat (umax wide_env))%Z /\
  struck demo_draw demo_shown wide_env lost_3 lost_k3 false [lost_k1] /\
  win_refresh demo_draw wide_env lost_3 = Ret lost_4 tt /\
  map (fun x => fst (v_cell (sees lost_4) 0 x)) [0; 1; 2; 3]%Z = [97; 32; 99; 32]%N /\
  map (fun x => fst (S_Canvas.ink lost_k3 0 x)) [0; 1; 2; 3] = [[97]; [98]; [99]; [32]]%N /\
  struck demo_draw demo_shown wide_env ex_5 (S_Canvas.refit (Size 1 4) lost_k3) true [] /\ covers (sees ex_5) /\
  win_refresh demo_draw wide_env ex_5 = Ret (done (win_refresh demo_draw wide_env ex_5)) tt /\
  map (fun x => fst (v_cell (sees (done (win_refresh demo_draw wide_env ex_5))) 0 x)) [0; 1; 2; 3]%Z = [97; 98; 99; 32]%N.
Proof.
  split; [exact demo_places|]. split; [exact wide_env_ok|]. split; [exact wide_env_max|]. split; [exact lost_struck|].
  split; [apply done_ok; vm_compute; reflexivity|]. split; [vm_compute; reflexivity|]. split; [vm_compute; reflexivity|].
  split; [|split; [split; vm_compute; reflexivity|split; [apply done_ok; vm_compute; reflexivity|vm_compute; reflexivity]]].
  refine (WF_resize demo_draw demo_shown wide_env lost_4 lost_k3 false [lost_k1] ex_v ex_5 tt _ _ _).
  - refine (WF_refresh demo_draw demo_shown wide_env lost_3 lost_k3 false [lost_k1] lost_4 tt lost_struck _ _).
    + intros Q; discriminate Q.
    + apply done_ok. vm_compute. reflexivity.
  - unfold S_WinWriter.view_ok; cbn; lia.
  - apply done_ok. vm_compute. reflexivity.
Qed.

(** The same when the clearing fails before. *)
Definition un_1 : wscr := wrote (some_screen (some_view 4 1 0 0 SPACE) (repeat (CTake 9) 9 ++ [CFail 5])) (BWriteStr [97]%N).
Definition un_2 : wscr := done (win_update_size wide_env (Size 1 4) (seeing ex_v un_1)).
Definition un_3 : wscr := done (win_refresh demo_draw wide_env un_2).
Definition un_4 : wscr := done (win_refresh demo_draw wide_env un_3).
Example C128_clearing_example :
  struck demo_draw demo_shown wide_env un_3
    (S_Canvas.refit (Size 1 4) (S_Canvas.draw wide_env (SWriteStr [97]%N) (S_Canvas.blank_canvas (Size 1 4)))) true [] /\
  covers (sees un_3) /\ win_refresh demo_draw wide_env un_3 = Ret un_4 tt /\
  map (fun x => fst (v_cell (sees un_3) 0 x)) [0; 1; 2; 3]%Z = [120; 120; 120; 120]%N /\
  map (fun x => fst (v_cell (sees un_4) 0 x)) [0; 1; 2; 3]%Z = [97; 32; 32; 32]%N.
Proof.
  split; [|split; [split; vm_compute; reflexivity|split; [apply done_ok; vm_compute; reflexivity|split; vm_compute; reflexivity]]].
  assert (H : is_fail (win_refresh demo_draw wide_env un_2) = true) by (vm_compute; reflexivity).
  apply done_fail in H. destruct H as (e & H).
  refine (WF_unclear demo_draw demo_shown wide_env un_2 _ [] un_3 e _ _ H _).
  - refine (WF_resize demo_draw demo_shown wide_env un_1 _ false [] ex_v un_2 tt _ _ _).
    + apply (struck_method _ _ false [] (SWriteStr [97]%N)); [|reflexivity|vm_compute; reflexivity].
      apply (struck_new (some_view 4 1 0 0 SPACE)); [unfold S_WinWriter.view_ok; cbn; lia|vm_compute; reflexivity].
    + unfold S_WinWriter.view_ok; cbn; lia.
    + apply done_ok. vm_compute. reflexivity.
  - split; vm_compute; reflexivity.
  - assert (C : is_fail (win_clear_screen (t_default (g_t un_2)) (t_w (g_t un_2))) = true) by (vm_compute; reflexivity).
    destruct (win_clear_screen (t_default (g_t un_2)) (t_w (g_t un_2))) as [|w e0| |]; try discriminate C. eauto.
Qed.
