(** C135: the same program draws the same picture on a Unix terminal and a Windows console. *)
From Verif Require Import Base M_Utf8 S_Utf8 M_Geom S_Geom M_Attr M_Signal M_Util M_Input M_Buf S_Buf M_Writer M_Prepare M_Reader
  M_WinWriter M_WinReader S_WinReader M_WinScreen S_WinScreen M_ScreenApi S_WinCanvas P_WinDraw P_WinDraw2 P_WinCanvas.
From Verif Require S_Tty S_Writer M_Screen S_Screen S_WinWriter S_Canvas S_Emu P_Emu P_Screen5 P_Buf3.
From Verif Require Import S_SamePicture P_SamePicture P_SamePicture2.

(** C135: a program that has done the same with its screen, of the same size at first and
    told the same sizes since, has the same size and cursor on both, and if both refreshes
    succeed, terminal and console show the same. *)
Theorem C135_same_picture :
  forall draw shown E C K, places draw shown -> env_ok E -> (32767 <= Z.of_nat (umax E))%Z ->
  S_Buf.env_chars E -> S_Writer.caps_coherent C -> S_Tty.implements E C K ->
  forall sz l s t w r s' x w' u,
    Forall (plain E shown) l -> unix_run E C K sz l s t -> win_run draw E sz l w r ->
    screen_get_size (M_Screen.sb s) = screen_get_size (g_sb w) /\
    screen_get_cursor (M_Screen.sb s) = screen_get_cursor (g_sb w) /\
    (M_Screen.refresh E C s = Ret s' tt -> S_Writer.stream (M_Screen.wr s') = S_Writer.stream (M_Screen.wr s) ++ x ->
     (r = true -> covers (sees w)) -> win_refresh draw E w = Ret w' u ->
     exists v, S_Tty.look K (S_Tty.feed K t x) = Some v /\ same_picture C shown (t_default (g_t w)) v (sees w')).
Proof. exact same_pictures. Qed.
Print Assumptions C135_same_picture.

(** On 3 lines of 4 columns: "abcde" on red, refreshed, then "fg" from (1, 2) and the cursor
    to (2, 1). *)
Definition ex_deeds : list deed :=
  [Draws (SSetBg (Some Red)); Draws (SWriteStr [97; 98; 99; 100; 101]%N); Shows;
   Draws (SWriteAt (At (Cursor 1 2)) [102; 103]%N); Draws (SSetCursor (Pair 2 1))].
Definition ex_unix_shows : list (option (list N)) :=
  match unix_play wide_env (Size 3 4) (ex_deeds ++ [Shows]) with
  | Some (_, t) => match S_Tty.look (S_Emu.ansi_tty wide_env) t with
                   | Some v => map (fun c => match nth_error (S_Tty.vcells v) c with
                                             | Some (S_Tty.VC x _) => Some x | _ => None end) [0; 3; 4; 6; 7; 8]
                   | None => []
                   end
  | None => []
  end.
Definition ex_win_shows : list (N * N) :=
  match wplay (ex_deeds ++ [Shows]) (some_screen (some_view 4 3 0 2 SPACE) []) with
  | Some w => map (fun p => v_cell (sees w) (fst p) (snd p)) [(0, 0); (0, 3); (1, 0); (1, 2); (1, 3); (2, 0)]%Z
  | None => []
  end.
Example C135_example_unix :
  exists s t, unix_run wide_env S_Emu.ansi_cfg (S_Emu.ansi_tty wide_env) (Size 3 4) ex_deeds s t.
Proof.
  apply unix_play_run; [exact wide_env_ok|P_Screen5.small|vm_compute; reflexivity].
Qed.
Example C135_example_windows : exists w, win_run demo_draw wide_env (Size 3 4) ex_deeds w false.
Proof.
  apply (win_play_run (Size 3 4) ex_deeds (some_screen (some_view 4 3 0 2 SPACE) [])); [|vm_compute; reflexivity].
  assert (H : is_ret (win_screen_new wide_env default_config (some_term (some_view 4 3 0 2 SPACE) [])) = true)
    by (vm_compute; reflexivity).
  apply made_ok in H. destruct H as (t1 & H).
  refine (W_new demo_draw wide_env (Size 3 4) default_config (some_term (some_view 4 3 0 2 SPACE) []) t1 _ _ _ _ _ _ _ H).
  - split; [reflexivity|]. intros [].
  - unfold S_WinWriter.view_ok; cbn; lia.
  - reflexivity.
  - reflexivity.
  - reflexivity.
  - reflexivity.
Qed.
Example C135_example_shows :
  ex_unix_shows = [Some [97]; Some [100]; Some [101]; Some [102]; Some [103]; Some [32]]%N /\
  ex_win_shows = [(97, 0x47); (100, 0x47); (101, 0x47); (102, 0x47); (103, 0x47); (32, 7)]%N.
Proof. split; vm_compute; reflexivity. Qed.
Example C135_example_plain : Forall (plain wide_env demo_shown) ex_deeds.
Proof.
  assert (T : forall s, forallb (fun c => (32 <=? c) && (c <? 127))%N s = true -> Forall (single wide_env demo_shown) s).
    { intros s. rewrite forallb_forall, Forall_forall. intros H c Hc. specialize (H c Hc). right. right. right.
      unfold wide_env. cbn [demo_env combining cwidth]. split; [lia|]. split.
      - intros (_ & Hw). cbn [demo_env cwidth] in Hw. unfold demo_width in Hw.
        destruct (_ || _) in Hw; [discriminate Hw|]. replace ((768 <=? c) && (c <=? 879))%N with false in Hw by lia.
        replace ((65281 <=? c) && (c <=? 65376))%N with false in Hw by lia. discriminate Hw.
      - intros _. unfold demo_shown. replace (c <? 65536)%N with true by lia. intros Q; discriminate Q. }
    assert (W : forall s, Forall (single wide_env demo_shown) s -> no_wide wide_env s).
    { intros s Hs. eapply Forall_impl; [|exact Hs]. intros c [->|[->|[->|(_ & Hw & _)]]]; [intros (_ & Hw); discriminate Hw..|exact Hw]. }
    repeat (apply Forall_cons; [first [exact Logic.I|split; [apply W|]; apply T; reflexivity]|]). apply Forall_nil.
Qed.
Example C135_example_meets :
  places demo_draw demo_shown /\ env_ok wide_env /\ (32767 <= Z.of_nat (umax wide_env))%Z /\
  S_Writer.caps_coherent S_Emu.ansi_cfg /\ S_Tty.implements wide_env S_Emu.ansi_cfg (S_Emu.ansi_tty wide_env).
Proof.
  split; [exact demo_places|]. split; [exact wide_env_ok|]. split; [exact wide_env_max|].
  split; [apply P_Screen5.ansi_coherent|apply P_Emu.ansi_implements, wide_env_ok].
Qed.
