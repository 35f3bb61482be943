(** C143: the example program examples/screen.rs on Windows. *)
From Coq Require Import String.
From Verif Require Import Base M_Utf8 S_Utf8 M_Geom S_Geom M_Attr M_Seq S_Seq M_Signal M_Util M_Input S_Input M_Buf S_Buf M_Writer M_Prepare M_Reader
  M_WinWriter M_WinReader S_WinReader M_WinScreen S_WinScreen M_ScreenApi M_Lines S_WinCanvas P_WinDraw2 S_SamePicture P_SamePicture.
From Verif Require S_WinWriter S_Portable S_Lines S_WinLines Prop_Interact Prop_Lines Prop_ScreenExample.
From Verif Require Import S_Canvas S_Interact M_ScreenExample S_ScreenExample M_WinScreenExample S_WinScreenExample P_WinScreenExample.
Local Open Scope nat_scope.

(** C143: the same on a Windows console whose calls do not fail, where the user makes the
    records [rs]; each round uses one.  [es]: the events for them. *)
Theorem C143_screen_example_console :
  forall debug draw shown E h,
  places draw shown -> env_ok E -> (32767 <= Z.of_nat (umax E))%Z -> S_Lines.ascii_plain E -> S_WinLines.ascii_shown shown ->
  (forall e, Forall (single E shown) (concat (debug e)) /\ newlines (concat (debug e)) <= h) ->
  forall z w rs n, win_start E z w rs ->
    3 <= lines z -> 33 <= columns z -> 4 + lines z + 2 * h <= umax E ->
    S_WinWriter.no_failure (c_answers (w_con (t_w (g_t w)))) ->
    let d := t_default (g_t w) in
    let rd0 := w_rd (t_in (g_t w)) in
    match wdemo debug draw E n w with
    | WGoing w' => exists now later es rd, rs = now ++ later /\ List.length now = n /\ tells E rd0 now es rd /\ ~ In the_q es /\
        wshows shown d w' (picture E debug z (latest (telling es)))
    | WWaiting w' => exists es rd, tells E rd0 rs es rd /\ ~ In the_q es /\ wshows shown d w' (picture E debug z (latest (telling es)))
    | WQuit w' => exists now r later es rd, rs = now ++ r :: later /\ tells E rd0 now es rd /\ ~ In the_q es /\
        key_press_event r = Some (KChar 113%N) /\ wshows shown d w' (picture E debug z (latest (telling es)))
    | _ => False
    end.
Proof. exact screen_example_console. Qed.
Print Assumptions C143_screen_example_console.

(** On 6 lines of 34 columns: a pressed and released, q, b. *)
Definition ex_term : wterm :=
  with_in (WSys (WReader false 0) 0 NO_SIGNAL 0x1f7 0 [] None [] []
    [WRec (KeyRec true 0x41 0 97); WRec (KeyRec false 0x41 0 97); WTime; WRec (KeyRec true 0x51 0 113); WStep; WRec (KeyRec true 0x42 0 98)])
    (some_term (some_view 34 6 0 5 SPACE) []).
Definition ex_w : wscr := made (win_screen_new wide_env default_config ex_term).
Definition ex_records : list record := [KeyRec true 0x41 0 97; KeyRec false 0x41 0 97; KeyRec true 0x51 0 113; KeyRec true 0x42 0 98].

Example C143_example_console_start : win_start wide_env (Size 6 34) ex_w ex_records /\
  S_WinWriter.no_failure (c_answers (w_con (t_w (g_t ex_w)))).
Proof.
  split.
  - constructor.
    + assert (H : is_ret (win_screen_new wide_env default_config ex_term) = true) by (vm_compute; reflexivity).
      apply made_ok in H. destruct H as (t1 & H). exists default_config, ex_term, t1.
      split; [split; [reflexivity|intros []]|]. split; [unfold S_WinWriter.view_ok; cbn; lia|].
      split; [reflexivity|]. split; [reflexivity|]. split; [reflexivity|]. split; [reflexivity|exact H].
    + assert (H : w_failing (t_in (g_t ex_w)) = None /\ unreported (t_in (g_t ex_w)) = [] /\ w_time (t_in (g_t ex_w)) = w_time (t_in ex_term))
        by (split; [|split]; vm_compute; reflexivity).
      destruct H as (H1 & H2 & H3). unfold S_Portable.wcalm. rewrite H1, H2, H3. split; [reflexivity|]. split; [reflexivity|]. repeat constructor.
    + vm_compute. reflexivity.
    + repeat constructor.
  - assert (Q : c_answers (w_con (t_w (g_t ex_w))) = []) by (vm_compute; reflexivity). rewrite Q. constructor.
Qed.
Lemma demo_ascii_shown : S_WinLines.ascii_shown demo_shown.
Proof. intros c Hc. unfold demo_shown. replace (c <? 65536)%N with true by lia. intros Q; discriminate Q. Qed.
Example C143_example_console_meets :
  places demo_draw demo_shown /\ env_ok wide_env /\ (32767 <= Z.of_nat (umax wide_env))%Z /\ S_Lines.ascii_plain wide_env /\
  S_WinLines.ascii_shown demo_shown /\
  (forall e, Forall (single wide_env demo_shown) (concat (Prop_ScreenExample.ex_debug e)) /\ newlines (concat (Prop_ScreenExample.ex_debug e)) <= 1).
Proof.
  split; [exact demo_places|]. split; [exact wide_env_ok|]. split; [exact wide_env_max|]. split; [apply Prop_Lines.demo_ascii|]. split; [exact demo_ascii_shown|].
  intros e. split; [|apply Prop_ScreenExample.C143_example_meets].
  assert (P : forall c, (32 <= c < 127)%N -> single wide_env demo_shown c).
  { intros c Hc. right. right. right. assert (Ha : S_Lines.ascii_plain wide_env) by apply Prop_Lines.demo_ascii. destruct (Ha c Hc) as ((_ & Q) & _). split; [destruct Q; tauto|].
    split; [now apply Prop_ScreenExample.plain_narrow|]. intros _. now apply demo_ascii_shown. }
  assert (O : Forall (single wide_env demo_shown) [63%N]) by (apply Forall_cons; [apply P; lia|apply Forall_nil]).
  destruct e as [[]| | | | |]; try exact O. cbn [Prop_ScreenExample.ex_debug concat]. unfold Prop_Interact.printable.
  apply Forall_app. split; [repeat (apply Forall_cons; [apply P; cbn; lia|]); apply Forall_nil|].
  apply Forall_cons; [right; left; reflexivity|]. cbn [app]. rewrite app_nil_r.
  destruct ((32 <=? c) && (c <? 127))%N eqn:Ep; (apply Forall_cons; [apply P; lia|apply Forall_nil]).
Qed.
Definition row_text (v : view) (l : Z) : list N := map (fun c => fst (v_cell v l (Z.of_nat c))) (seq 0 34).
Example C143_example_console_run :
  match wdemo Prop_ScreenExample.ex_debug demo_draw wide_env 5 ex_w with
  | WQuit w => (map (row_text (sees w)) [0; 1; 2; 3; 4; 5]%Z, v_cur (sees w)) =
                 ([chars "Reading input. Press 'q' to stop. "; repeat 32%N 34;
                   chars "     Hello, world!                "; repeat 32%N 34; chars "Key                               ";
                   chars "a                                 "], Coord 1 5)
  | _ => False
  end.
Proof. vm_compute. reflexivity. Qed.
