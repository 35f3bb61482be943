(** C137: an interactive program shows what it makes of the keys that are pressed. *)
From Verif Require Import Base M_Utf8 S_Utf8 M_Geom S_Geom M_Attr M_Seq S_Seq M_Signal M_Util M_Input S_Input M_Buf S_Buf M_Writer M_Prepare M_Reader
  M_WinWriter M_WinReader S_WinReader M_WinScreen S_WinScreen M_ScreenApi S_WinCanvas P_WinDraw2.
From Verif Require S_Tty S_Writer M_Screen S_Screen S_WinWriter S_Canvas M_UnixScreen S_UnixScreen S_Reader S_Typing S_Portable S_SamePicture
  S_Emu P_Emu P_Screen5 P_Buf3 Prop_Typing Prop_Prepare Prop_UnixScreen P_SamePicture P_Typing.
From Verif Require Import S_Interact P_Interact P_Interact2 S_Succeeds P_Succeeds2 P_Succeeds3.
From Verif Require P_Succeeds4.
Local Open Scope nat_scope.

(** C137: a program that reads a key, draws and refreshes, again and again, on a Unix screen
    where the user does [acts]: it is never told of an error while it reads; after any number
    of rounds it has answered the keys of some first part of [acts], in order, and (once there
    was one) the terminal shows what it has drawn for them, with the cursor where it is
    drawing; when it waits with nothing to come it has answered all; and after as many rounds
    as there are actions and portions it waits. *)
Theorem C137_unix_shows_answers :
  forall M (react : M -> key -> M * list smethod) E C m K,
  key_map m -> (forall c n, n <= grow C c n) -> env_ok E -> env_chars E -> S_Writer.caps_coherent C ->
  S_Tty.implements E C K -> S_UnixScreen.plain_caps C -> writes_narrow react E ->
  forall z t0 u acts x n, unix_start E C m K z t0 u acts ->
    match rounds M (unix_round M react E C m) n x u with
    | Going x' u' =>
        (n <= length acts + length (S_Reader.portions (M_UnixScreen.u_sys u)))%nat /\
        exists now later k', acts = now ++ later /\
          answers M react E (keys (map S_Typing.heard now)) x (S_Canvas.blank_canvas z) = (x', k') /\
          (keys (map S_Typing.heard now) <> [] -> exists v, unix_sees K t0 u' = Some v /\
            S_Canvas.displays C v k' /\ S_Tty.vcur v = S_Canvas.pen_goal k')
    | Waiting x' u' =>
        exists k', answers M react E (keys (map S_Typing.heard acts)) x (S_Canvas.blank_canvas z) = (x', k') /\
          (keys (map S_Typing.heard acts) <> [] -> exists v, unix_sees K t0 u' = Some v /\
            S_Canvas.displays C v k' /\ S_Tty.vcur v = S_Canvas.pen_goal k')
    | Panicked => True
    | Unshown => True
    | Unread => False
    end.
Proof. exact unix_interacts. Qed.
Print Assumptions C137_unix_shows_answers.

(** C137: the same on a Windows console where the user makes the records [rs]; each round
    uses one. *)
Theorem C137_windows_shows_answers :
  forall M (react : M -> key -> M * list smethod) draw shown E,
  places draw shown -> env_ok E -> (32767 <= Z.of_nat (umax E))%Z -> writes_single react E shown ->
  forall z w rs x n, win_start E z w rs ->
    match rounds M (win_round M react E draw) n x w with
    | Going x' w' =>
        exists now later k', rs = now ++ later /\ length now = n /\
          answers M react E (record_keys now) x (S_Canvas.blank_canvas z) = (x', k') /\
          (record_keys now <> [] -> wdisplays shown (t_default (g_t w)) (sees w') k' /\
            v_cur (sees w') = Coord (Z.of_nat (column (S_Canvas.pen_goal k'))) (Z.of_nat (line (S_Canvas.pen_goal k'))))
    | Waiting x' w' =>
        exists k', answers M react E (record_keys rs) x (S_Canvas.blank_canvas z) = (x', k') /\
          (record_keys rs <> [] -> wdisplays shown (t_default (g_t w)) (sees w') k' /\
            v_cur (sees w') = Coord (Z.of_nat (column (S_Canvas.pen_goal k'))) (Z.of_nat (line (S_Canvas.pen_goal k'))))
    | Panicked => True
    | Unshown => True
    | Unread => False
    end.
Proof. exact windows_interacts. Qed.
Print Assumptions C137_windows_shows_answers.

(** C137: so when the same keys are pressed, the same program remembers the same and shows
    the same on both. *)
Theorem C137_same_on_both :
  forall M (react : M -> key -> M * list smethod) draw shown E C m K,
  places draw shown -> env_ok E -> (32767 <= Z.of_nat (umax E))%Z -> env_chars E -> S_Writer.caps_coherent C ->
  S_Tty.implements E C K -> S_UnixScreen.plain_caps C -> key_map m -> (forall c n, n <= grow C c n) -> writes_single react E shown ->
  forall z l t0 u acts w rs x n n' xu u' xw w',
    l <> [] -> Forall S_Portable.portable l -> Forall2 S_Portable.unix_press l acts -> S_Portable.win_types l rs ->
    unix_start E C m K z t0 u acts -> win_start E z w rs ->
    rounds M (unix_round M react E C m) n x u = Waiting xu u' ->
    rounds M (win_round M react E draw) n' x w = Waiting xw w' ->
    xu = xw /\ exists v, unix_sees K t0 u' = Some v /\ S_SamePicture.same_picture C shown (t_default (g_t w)) v (sees w').
Proof. exact both_interact. Qed.
Print Assumptions C137_same_on_both.

(** C137: no round fails to show, if the OS takes what is written (often enough) and the
    terminal has what drawing needs ... *)
Theorem C137_unix_always_shows :
  forall M (react : M -> key -> M * list smethod) E C m K,
  key_map m -> (forall c n, n <= grow C c n) -> env_ok E -> env_chars E -> S_Writer.caps_coherent C ->
  S_Tty.implements E C K -> S_UnixScreen.plain_caps C -> drawable C -> writes_narrow react E ->
  forall z t0 u acts x n, unix_start E C m K z t0 u acts ->
    S_Writer.perfect (script (wr (M_UnixScreen.u_sys u))) ->
    n * (2 * total z + 1) <= writes_left (script (wr (M_UnixScreen.u_sys u))) ->
    rounds M (unix_round M react E C m) n x u <> Unshown.
Proof. exact unix_always_shows. Qed.
Print Assumptions C137_unix_always_shows.

(** ... and, on Windows, if the console's calls do not fail. *)
Theorem C137_windows_always_shows :
  forall M (react : M -> key -> M * list smethod) draw shown E,
  places draw shown -> env_ok E -> (32767 <= Z.of_nat (umax E))%Z -> writes_single react E shown ->
  forall z w rs x n, win_start E z w rs -> S_WinWriter.no_failure (c_answers (w_con (t_w (g_t w)))) ->
    rounds M (win_round M react E draw) n x w <> Unshown.
Proof. exact windows_always_shows. Qed.
Print Assumptions C137_windows_always_shows.

(** A line editor on 2 lines of 4 columns: a character is added, Backspace removes the last
    one, and the line is drawn anew. *)
Definition printable (c : N) : bool := (32 <=? c)%N && (c <? 127)%N.
Definition edit (t : list N) (k : key) : list N * list smethod :=
  let t := match k with KChar c => t ++ [c] | KBackspace => removelast t | _ => t end in
  (t, [SClearScreen; SWriteAt (At (Cursor 0 0)) (filter printable t)]).

(** a, b, Backspace, c. *)
Definition ex_presses : list S_Portable.press :=
  [S_Portable.Letter 97; S_Portable.Letter 98; S_Portable.Named KBackspace; S_Portable.Letter 99].
Definition ex_acts : list S_Typing.act := [S_Typing.Typed 97; S_Typing.Typed 98; S_Typing.Typed 127; S_Typing.Typed 99].
Definition ex_sys0 : sys :=
  Sys [] 0 None ss_new (W [] 512 no_attrs 0 [] (P_Screen5.alls 160)) 0 Prop_Prepare.ex_tio (fun n => Other n) [] None
    (inr (Size 2 4)) [] [TInput [97; 98]%N; TStep; TTime; TInput [127]%N; TInput [99]%N; TStep].
Definition no_uscr : M_UnixScreen.uscr :=
  M_UnixScreen.UScr (SBuf [] [] (Size 0 0) (Cursor 0 0) no_attrs) false (Cursor 0 0)
    (PState Prop_Prepare.ex_tio None None None None None false false None) ex_sys0.
Definition got_u (r : out sys rerr M_UnixScreen.uscr) : M_UnixScreen.uscr := match r with Ret _ u => u | _ => no_uscr end.
Definition ex_u : M_UnixScreen.uscr := got_u (M_UnixScreen.unix_screen_new wide_env S_Emu.ansi_cfg default_config ex_sys0).
Definition ex_term : wterm :=
  with_in (WSys (WReader false 0) 0 NO_SIGNAL 0x1f7 0 [] None [] []
    [WRec (KeyRec true 0x41 0 97); WRec (KeyRec false 0x41 0 97); WTime; WRec (KeyRec true 0x42 0 98); WStep;
     WRec (KeyRec true 0x08 0 8); WRec (KeyRec true 0x43 0 99)])
    (some_term (some_view 4 2 0 1 SPACE) []).
Definition ex_w : wscr := made (win_screen_new wide_env default_config ex_term).
Definition ex_records : list record :=
  [KeyRec true 0x41 0 97; KeyRec false 0x41 0 97; KeyRec true 0x42 0 98; KeyRec true 0x08 0 8; KeyRec true 0x43 0 99].

Example C137_example_program : writes_single edit wide_env demo_shown.
Proof.
  intros x key. cbn [edit snd map S_Canvas.method_text concat app]. rewrite app_nil_r. apply Forall_forall. intros c Hc.
  apply filter_In in Hc. destruct Hc as [_ Hc]. unfold printable in Hc. right. right. right.
  unfold wide_env. cbn [demo_env combining cwidth]. split; [lia|]. split.
  - intros (_ & Hw). cbn [demo_env cwidth] in Hw. unfold demo_width in Hw.
    destruct (_ || _) in Hw; [discriminate Hw|]. replace ((768 <=? c) && (c <=? 879))%N with false in Hw by lia.
    replace ((65281 <=? c) && (c <=? 65376))%N with false in Hw by lia. discriminate Hw.
  - intros _. unfold demo_shown. replace (c <? 65536)%N with true by lia. intros Q; discriminate Q.
Qed.
Lemma got_u_ok r : is_ret r = true -> exists s, r = Ret s (got_u r).
Proof. destruct r as [s u| | |]; intros H; try discriminate H. now exists s. Qed.
Lemma ex_u_ok : exists s, M_UnixScreen.unix_screen_new wide_env S_Emu.ansi_cfg default_config ex_sys0 = Ret s ex_u.
Proof. unfold ex_u. apply got_u_ok. vm_compute. reflexivity. Qed.
Example C137_example_unix : unix_start wide_env S_Emu.ansi_cfg Prop_Typing.ex_clear (S_Emu.ansi_tty wide_env) (Size 2 4)
  (S_Emu.emu_new (Size 2 4)) ex_u ex_acts.
Proof.
  constructor.
  - destruct ex_u_ok as (s1 & H).
    exists default_config, ex_sys0, s1, (S_Tty.View (Size 2 4) (repeat (S_Tty.VC [SPACE] no_attrs) (total (Size 2 4))) (Cursor 0 0) no_attrs true).
    split; [reflexivity|]. split; [P_Screen5.small|]. split; [repeat (apply Forall_cons; [constructor|]); constructor|].
    split; [|split; [reflexivity|split; [reflexivity|exact H]]].
    cbn [S_Writer.stream ex_sys0 wr dev obuf app]. rewrite (S_Tty.feed_nil _ _ _ (P_Emu.ansi_implements _ wide_env_ok)). apply P_Emu.emu_new_look.
  - assert (H : failing (M_UnixScreen.u_sys ex_u) = None /\ last_sig (M_UnixScreen.u_sys ex_u) = 0%N /\
      time (M_UnixScreen.u_sys ex_u) = [TInput [97; 98]%N; TStep; TTime; TInput [127]%N; TInput [99]%N; TStep])
      by (split; [|split]; vm_compute; reflexivity).
    destruct H as (H1 & H2 & H3). unfold S_Reader.calm. rewrite H1, H2, H3. split; [reflexivity|]. split; [reflexivity|]. repeat constructor.
  - assert (H : time (M_UnixScreen.u_sys ex_u) = [TInput [97; 98]%N; TStep; TTime; TInput [127]%N; TInput [99]%N; TStep]) by (vm_compute; reflexivity).
    rewrite H. intros r Q. cbn [In] in Q. repeat (destruct Q as [Q|Q]; [discriminate Q|]). exact Q.
  - vm_compute. reflexivity.
  - assert (H : S_Reader.portions (M_UnixScreen.u_sys ex_u) = [[97; 98]; [127]; [99]]%N) by (vm_compute; reflexivity). rewrite H.
    assert (Hu := proj1 Prop_Typing.C98_example).
    assert (Hb : forall c rest, scalar c -> c <> 27%N -> (c < 128)%N -> S_Typing.clear_before Prop_Typing.ex_clear rest (S_Typing.Typed c)).
    { intros c rest Hc Hn Hl. apply (P_Typing.ordinary_clear _ Prop_Typing.ex_clear_map _ _ Hu). split; [exact Hc|]. intros q v Hi (r & Hr).
      assert (U : utf8 c = [c]) by (unfold utf8; replace (c <? 128)%N with true by lia; reflexivity). rewrite U in Hr.
      rewrite Prop_Typing.ex_clear_seqs in Hi. cbn [In] in Hi.
      repeat match type of Hi with _ \/ _ => destruct Hi as [Hi|Hi] end; try contradiction; injection Hi as <- <-; injection Hr as Hr _; congruence. }
    change ex_acts with ([S_Typing.Typed 97; S_Typing.Typed 98] ++ [S_Typing.Typed 127] ++ [S_Typing.Typed 99] ++ []).
    repeat (apply S_Typing.Ar_portion with (held' := []); [discriminate|cbn; lia|reflexivity| |now left|]); [| | |apply S_Typing.Ar_end];
      repeat split; try (apply Hb; [reflexivity|discriminate|reflexivity]).
Qed.
Example C137_example_windows : win_start wide_env (Size 2 4) ex_w ex_records /\ S_Portable.win_types ex_presses ex_records.
Proof.
  split.
  - constructor.
    + assert (H : is_ret (win_screen_new wide_env default_config ex_term) = true) by (vm_compute; reflexivity).
      apply made_ok in H. destruct H as (t1 & H). exists default_config, ex_term, t1.
      split; [split; [reflexivity|intros []]|]. split; [unfold S_WinWriter.view_ok; cbn; lia|].
      split; [reflexivity|]. split; [reflexivity|]. split; [reflexivity|]. split; [reflexivity|exact H].
    + assert (H : w_failing (t_in (g_t ex_w)) = None /\ unreported (t_in (g_t ex_w)) = [] /\ w_time (t_in (g_t ex_w)) = w_time (t_in ex_term))
        by (split; [|split]; vm_compute; reflexivity).
      destruct H as (H1 & H2 & H3). unfold S_Portable.wcalm. rewrite H1, H2, H3. split; [reflexivity|]. split; [reflexivity|]. repeat constructor.
    + vm_compute. reflexivity.
    + repeat constructor.
  - assert (Ho : other_vk 0x41 /\ other_vk 0x42 /\ other_vk 0x43)
      by (repeat split; intros H; vm_compute in H; repeat (destruct H as [H|H]; [discriminate H|]); exact H).
    destruct Ho as (O1 & O2 & O3).
    apply S_Portable.WT_press; [apply S_Portable.WP_letter; try reflexivity; try assumption; try lia; discriminate|].
    apply S_Portable.WT_beside; [left; reflexivity|].
    apply S_Portable.WT_press; [apply S_Portable.WP_letter; try reflexivity; try assumption; try lia; discriminate|].
    apply S_Portable.WT_press; [apply S_Portable.WP_named; [vm_compute; tauto|reflexivity]|].
    apply S_Portable.WT_press; [apply S_Portable.WP_letter; try reflexivity; try assumption; try lia; discriminate|].
    apply S_Portable.WT_end.
Qed.
Example C137_example_presses : Forall S_Portable.portable ex_presses /\ Forall2 S_Portable.unix_press ex_presses ex_acts.
Proof.
  split; [repeat (apply Forall_cons; [exact I|]); apply Forall_nil|].
  repeat (apply Forall2_cons; [constructor; lia|]). apply Forall2_nil.
Qed.
Example C137_example_meets :
  places demo_draw demo_shown /\ env_ok wide_env /\ (32767 <= Z.of_nat (umax wide_env))%Z /\ env_chars wide_env /\ key_map Prop_Typing.ex_clear /\
  S_Writer.caps_coherent S_Emu.ansi_cfg /\ S_Tty.implements wide_env S_Emu.ansi_cfg (S_Emu.ansi_tty wide_env) /\
  S_UnixScreen.plain_caps S_Emu.ansi_cfg /\ (forall c n, n <= grow S_Emu.ansi_cfg c n).
Proof.
  split; [exact demo_places|]. split; [exact wide_env_ok|]. split; [exact wide_env_max|]. split; [apply P_Screen5.demo_chars|]. split; [exact Prop_Typing.ex_clear_map|].
  split; [apply P_Screen5.ansi_coherent|]. split; [apply P_Emu.ansi_implements, wide_env_ok|]. split; [exact Prop_UnixScreen.ux_plain|].
  intros c n. cbn. lia.
Qed.
Example C137_example_run :
  match rounds _ (unix_round _ edit wide_env S_Emu.ansi_cfg Prop_Typing.ex_clear) 8 [] ex_u,
        rounds _ (win_round _ edit wide_env demo_draw) 8 [] ex_w with
  | Waiting x u, Waiting y w =>
      (x, y, match unix_sees (S_Emu.ansi_tty wide_env) (S_Emu.emu_new (Size 2 4)) u with
             | Some v => (map (fun c => match nth_error (S_Tty.vcells v) c with Some (S_Tty.VC t _) => t | _ => [] end) [0; 1; 2], S_Tty.vcur v)
             | None => ([], Cursor 9 9)
             end,
       map (fun c => fst (v_cell (sees w) 0 c)) [0; 1; 2]%Z, v_cur (sees w)) =
      ([97; 99], [97; 99], ([[97]; [99]; [32]], Cursor 0 2), [97; 99; 32], Coord 2 0)%N
  | _, _ => False
  end.
Proof. vm_compute. reflexivity. Qed.
(** Nothing is left unshown in eight rounds of it. *)
Example C137_example_shows : drawable S_Emu.ansi_cfg /\ S_Writer.perfect (script (wr (M_UnixScreen.u_sys ex_u))) /\
  8 * (2 * total (Size 2 4) + 1) <= writes_left (script (wr (M_UnixScreen.u_sys ex_u))) /\
  S_WinWriter.no_failure (c_answers (w_con (t_w (g_t ex_w)))).
Proof.
  split; [apply P_Succeeds4.ansi_drawable|]. split; [|split].
  - assert (H : forallb (fun r => match r with WAll | WIntr => true | _ => false end) (script (wr (M_UnixScreen.u_sys ex_u))) = true) by (vm_compute; reflexivity).
    apply Forall_forall. intros r Hr. apply (proj1 (forallb_forall _ _) H) in Hr. destruct r; try discriminate; auto.
  - apply Nat.leb_le. vm_compute. reflexivity.
  - assert (Q : c_answers (w_con (t_w (g_t ex_w))) = []) by (vm_compute; reflexivity). rewrite Q. constructor.
Qed.
