(** Property theorem for any programs that share a [Screen] on Windows (C117). *)
From Verif Require Import Base M_Utf8 S_Utf8 M_Geom S_Geom M_Attr M_Buf S_Buf M_Writer M_Api M_ScreenApi M_Locks S_Locks S_Together
  M_WinWriter S_WinWriter M_WinReader M_WinScreen S_WinScreen P_WinDraw2 S_WinCanvas M_WinApi S_WinApi Prop_WinApi
  M_WinLocks S_WinLocks M_WinShare S_WinTogether Prop_WinTogether S_WinCursor S_Program Prop_Program S_WinProgram P_WinProgram2 P_WinProgram3.
From Verif Require S_Canvas.
Import S_Canvas.

(** C117: any number of threads share a screen in use on Windows (whose canvas is [k]), each
    running any program of calls of the methods of [Screen] and its guards that follows the
    rules for the guards (C52) and writes text that takes one position per character; what a
    program does next may depend on everything that was answered.  If the size has just
    changed, the window covers the buffer.  However they are scheduled: once all have
    finished, no access has failed and no new size has been read, there is an order of all
    that was drawn, shown and asked of the cursor, in pieces that are not mixed, in which
    the pieces of each thread are what its program does, such that the screen holds the
    canvas that results from them in that order, the console's cursor has the size and
    visibility asked for last, and the console shows the canvas of the last refresh or
    dropped guard, with the cursor at its pen (or what it showed before, if there is
    none). *)
Theorem C117_share_screen : forall draw shown E, places draw shown -> env_ok E -> (32767 <= Z.of_nat (umax E))%Z ->
  forall (progs : list client) s k r tr c t' d', wpainted draw shown E s k r -> (r = true -> covers (sees s)) ->
  Forall (fun p => S_Locks.follows true None None p /\ drawing_program (fun m => Forall (single E shown) (method_text m)) p) progs ->
  wrun (screen_access draw E (g_state s) (g_old s)) (wstart progs (wshare s)) tr c ->
  wfinished c -> S_Together.no_failure tr -> no_new_size tr -> wshared c = (Some t', Some d') ->
  exists order : list (nat * list mark), (forall i, did None (nth i progs Finish) (done_by i order)) /\
    let l := concat (map snd order) in
    one_size l /\ holds (dbuf d') (marked E l k) /\
    c_cursor (w_con (t_w t')) = cursor_after l (c_cursor (w_con (t_w (g_t s)))) /\
    match last_shown E l k None with
    | Some k' => wdisplays shown (t_default (g_t s)) (c_view (w_con (t_w t'))) k' /\
        v_cur (c_view (w_con (t_w t'))) = Coord (Z.of_nat (column (pen_goal k'))) (Z.of_nat (line (pen_goal k')))
    | None => c_view (w_con (t_w t')) = c_view (w_con (t_w (g_t s)))
    end.
Proof. exact wshare_screen. Qed.
Print Assumptions C117_share_screen.

(** C116's threads, on the console of C111's example: a thread that reads events until 'q',
    one that draws "[ab]" and one that finds the screen busy, waits for it, hides the cursor
    and draws "[c]". *)
Lemma draw_all_drawing T l k : drawing_program T k -> Forall T l -> drawing_program T (draw_all l k).
Proof. intros H. induction 1 as [|m l Hm _ IH]; [exact H|]. cbn. split; [eauto|]. intros _. exact IH. Qed.
Lemma events_drawing T n : drawing_program T (events_until_q n).
Proof.
  induction n as [|n IH]; cbn; [repeat split|]. split; [exact I|]. intros a.
  destruct (match a with AOther c => (c =? 113)%N | _ => false end); [|exact IH]. cbn. repeat split.
Qed.
Definition plain (c : N) : bool := ((32 <=? c) && (c <? 127))%N.
Lemma plain_single c : plain c = true -> single wide_env demo_shown c.
Proof.
  unfold plain. intros Hc. right. right. right.
  unfold wide_env. cbn [demo_env combining cwidth]. split; [lia|]. split.
  - intros (_ & Hw). cbn [demo_env cwidth] in Hw. unfold demo_width in Hw.
    destruct (_ || _) in Hw; [discriminate Hw|]. replace ((768 <=? c) && (c <=? 879))%N with false in Hw by lia.
    replace ((65281 <=? c) && (c <=? 65376))%N with false in Hw by lia. discriminate Hw.
  - intros _. unfold demo_shown. replace (c <? 65536)%N with true by lia. intros Q; discriminate Q.
Qed.
Definition ex_text (m : smethod) : Prop := Forall (single wide_env demo_shown) (method_text m).
Lemma put_name_drawing name line c k : drawing_program ex_text k -> forallb plain name = true -> drawing_program ex_text (put_name name line c k).
Proof.
  intros H Hn. apply draw_all_drawing.
  - cbn. split; [exact I|]. intros _. exact H.
  - apply Forall_forall. intros m Hm. unfold ex_text. apply Forall_forall. intros x Hx. apply plain_single.
    rewrite forallb_forall in Hn. cbn in Hm. intuition subst; cbn in Hx; try contradiction; auto; destruct Hx as [<-|[]]; reflexivity.
Qed.

Definition ex_progs : list client := [main_thread 5; worker [97; 98]%N 0 Red; eager [99]%N 1 Blue].
Definition ex_hidden (t : option wterm) : bool := match t with Some t => negb (snd (c_cursor (w_con (t_w t)))) | None => false end.
Example C117_example :
  places demo_draw demo_shown /\ env_ok wide_env /\ (32767 <= Z.of_nat (umax wide_env))%Z /\
  wpainted demo_draw demo_shown wide_env ex_shared (blank_canvas (Size 2 6)) false /\
  Forall (fun p => S_Locks.follows true None None p /\
    drawing_program (fun m => Forall (single wide_env demo_shown) (method_text m)) p) ex_progs /\
  exists tr c, wrun (screen_access demo_draw wide_env (g_state ex_shared) (g_old ex_shared))
      (wstart ex_progs (wshare ex_shared)) tr c /\ wfinished c /\ S_Together.no_failure tr /\ no_new_size tr /\
    ex_hidden (fst (wshared c)) &&
    ex_shows [(0, 0, 91, 7); (0, 1, 97, 12); (0, 2, 98, 12); (0, 3, 93, 7); (1, 0, 91, 7); (1, 1, 99, 9); (1, 2, 93, 7)]%N
      (fst (wshared c)) (snd (wshared c)) = true.
Proof.
  split; [exact demo_places|]. split; [exact wide_env_ok|]. split; [exact wide_env_max|].
  split; [exact ex_shared_painted|]. split.
  { assert (H : forall name line c, forallb plain name = true -> forall k, k = Call SWDrop (fun _ => Finish) ->
      S_Locks.follows true None (Some OfScreen) (put_name name line c k) /\ drawing_program ex_text (put_name name line c k)).
    { intros name line c Hn k ->. split; [apply put_name_follows|apply put_name_drawing; [|exact Hn]]; cbn; repeat split. }
    change (fun m => Forall (single wide_env demo_shown) (method_text m)) with ex_text.
    repeat (apply Forall_cons); [| | |constructor].
    - split; cbn; (split; [repeat split; auto|]); intros _; [exact (events_follow 5)|exact (events_drawing _ 5)].
    - split; cbn [S_Locks.follows drawing_program worker allowed]; (split; [reflexivity || exact I|]); intros a; apply H; auto.
    - assert (B := H [99]%N 1 Blue eq_refl _ eq_refl). clear H.
      unfold eager. set (q := put_name _ _ _ _) in *. clearbody q. destruct B as [B1 B2].
      split; cbn; (split; [reflexivity || exact I|]); intros []; cbn; repeat (split; [reflexivity || exact I|]; intros _); assumption. }
  apply (wlends_ok (screen_access demo_draw wide_env (g_state ex_shared) (g_old ex_shared)) ex_progs (wshare ex_shared)
    (map (fun i => (i, COther 113%N)) ([0; 1; 1; 1; 2; 2] ++ repeat 1 11 ++ repeat 2 15 ++ repeat 0 2))
    (fun t d => ex_hidden t && ex_shows [(0, 0, 91, 7); (0, 1, 97, 12); (0, 2, 98, 12); (0, 3, 93, 7); (1, 0, 91, 7); (1, 1, 99, 9); (1, 2, 93, 7)]%N t d)).
  vm_compute. reflexivity.
Qed.
