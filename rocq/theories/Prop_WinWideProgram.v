(** Property theorem for any programs that share a [Screen] on Windows, whatever text they
    write (C127). *)
From Verif Require Import Base M_Utf8 S_Utf8 M_Geom S_Geom M_Attr M_Buf S_Buf M_Writer M_ScreenApi
  M_Locks S_Locks S_Together M_WinWriter S_WinWriter M_WinReader M_WinScreen S_WinScreen S_WinCanvas
  M_WinLocks S_WinLocks M_WinShare S_WinTogether S_WinCursor S_Program S_WinProgram
  S_WideCanvas S_WideProgram S_WinWide P_WinDraw2 P_WinWide P_WinWide2 S_OneThread S_WinOneThread S_WinWideProgram P_WinWideProgram.

(** C127: any number of threads share a screen on Windows, each running any program of calls
    of the methods of [Screen] and its guards that follows the rules for the guards (C89).
    The canvas of the screen was [k] (C126).  However they are scheduled: whenever no thread
    holds a write guard or is inside a method that changes something, there is an order of
    all that was drawn, shown and asked of the cursor, in pieces that are not mixed, as in
    C123, such that, if all of it succeeded and nothing happened that C126 excludes, the
    screen holds the canvas that results, the console shows the canvas of the last refresh
    or dropped guard, double-width characters included, with the cursor at the pen unless
    that is a right half, and the cursor is of the kind that was asked for last.  If nothing
    was shown, the console looks as before.  No call reads that the window has a new size. *)
Theorem C127_share_screen_partial : forall draw shown shown2 is_half E,
  wide_places draw shown shown2 is_half -> env_ok E -> (32767 <= Z.of_nat (umax E))%Z ->
  forall (progs : list client) s k last tr c t' d',
  win_painted draw shown shown2 E s k last -> (last = None -> covers (sees s)) ->
  Forall (fun p => wfollows true None None p /\ uses_screen p) progs ->
  wrun (screen_access draw E (g_state s) (g_old s)) (wstart progs (wshare s)) tr c ->
  wowner c LWriter = None -> wowner c LData = None -> wshared c = (Some t', Some d') ->
  exists order : list (nat * list deed),
    (forall i, exists rest, wdid_so None (nth i progs Finish) (done_by i order ++ rest) /\ (wthreads c i = Done -> rest = [])) /\
    let l := concat (map snd order) in
    (exists s', wperformed draw E l s s' /\ wshare s' = (Some t', Some d')) /\
    (all_well l -> win_gentle E shown shown2 (marks_of l) k last ->
     wholds (dbuf d') (wmarked E (marks_of l) k) /\
     c_cursor (w_con (t_w t')) = cursor_after (marks_of l) (c_cursor (w_con (t_w (g_t s)))) /\
     match wlast_shown E (marks_of l) k None with
     | Some k' => win_wdisplays E shown shown2 (t_default (g_t s)) (c_view (w_con (t_w t'))) k' /\
         (wink k' (line (wpen_goal k')) (column (wpen_goal k')) <> Right ->
          v_cur (c_view (w_con (t_w t'))) = Coord (Z.of_nat (column (wpen_goal k'))) (Z.of_nat (line (wpen_goal k'))))
     | None => c_view (w_con (t_w t')) = sees s
     end).
Proof.
  intros draw shown shown2 is_half E HP HE HU. exact (win_share_wide draw shown shown2 is_half E HP HE HU).
Qed.
Print Assumptions C127_share_screen_partial.

(** One thread draws U+FF41 and "a" through the write guard; another writes a red U+FF42 on
    another line, and shows the screen; a third wants to read, and has not finished. *)
Definition guarded : client :=
  Call SLockWrite (fun _ => Call (SWBuf (sforward (SWriteAt (Pair 0 1) [65345]%N))) (fun _ =>
  Call (SWBuf (sforward (SWriteStr [97]%N))) (fun _ => Call SWDrop (fun _ => Finish)))).
Definition unguarded : client :=
  Call (SBuf (sforward (SWriteStyledAt (Pair 1 0) (Some Red) None None [65346]%N))) (fun _ => Call M_Locks.SRefresh (fun _ => Finish)).
Definition waiting : client := Call SRead (fun _ => Call (SSetCursorMode CInvisible) (fun _ => Finish)).

Example C127_example :
  let progs := [guarded; unguarded; waiting] in
  let order := [(1, [Did (Drawn (SWriteStyledAt (Pair 1 0) (Some Red) None None [65346]%N)) AOk]);
    (0, [Did (Drawn (SWriteAt (Pair 0 1) [65345]%N)) AOk; Did (Drawn (SWriteStr [97]%N)) AOk; Did Shown AOk]);
    (1, [Did Shown AOk; Did Shown AOk])] in
  let k := wblank (Size 2 6) in
  wide_places duo_draw duo_shown duo_shown2 duo_half /\ env_ok wide_env /\ (32767 <= Z.of_nat (umax wide_env))%Z /\
  Forall (fun p => wfollows true None None p /\ uses_screen p) progs /\
  (forall i, exists rest, wdid_so None (nth i progs Finish) (done_by i order ++ rest)) /\
  all_well (concat (map snd order)) /\
  win_gentle wide_env duo_shown duo_shown2 (marks_of (concat (map snd order))) k (Some (first_shot k)) /\
  exists s tr c t' d', win_painted duo_draw duo_shown duo_shown2 wide_env s k (Some (first_shot k)) /\
    wrun (screen_access duo_draw wide_env (g_state s) (g_old s)) (wstart progs (wshare s)) tr c /\
    wowner c LWriter = None /\ wowner c LData = None /\ wshared c = (Some t', Some d') /\ wthreads c 2 <> Done /\
    match map (fun p => v_cell (c_view (w_con (t_w t'))) (fst p) (snd p)) [(0, 0); (0, 1); (0, 2); (0, 3); (1, 0); (1, 1); (1, 2)]%Z with
    | [(32, 7); (65345, 7); (1179457, 7); (97, 7); (65346, 4); (1179458, 4); (32, 7)]%N => true
    | _ => false
    end = true.
Proof.
  cbv zeta. split; [exact duo_places|]. split; [exact wide_env_ok|]. split; [exact wide_env_max|]. split; [|split; [|split; [|split]]].
  - repeat (apply Forall_cons); [| | |constructor]; split; cbn; repeat (split; [repeat split; auto; try (eexists; reflexivity); try discriminate|intros ?]); auto.
    + now exists (SWriteAt (Pair 0 1) [65345]%N).
    + now exists (SWriteStr [97]%N).
    + now exists (SWriteStyledAt (Pair 1 0) (Some Red) None None [65346]%N).
  - intros [|[|[|i]]]; cbn.
    + exists []. apply wso_lock; [now left|]. apply (wso_through _ _ (Drawn (SWriteAt (Pair 0 1) [65345]%N)) AOk []); [constructor|].
      apply (wso_through _ _ (Drawn (SWriteStr [97]%N)) AOk); [constructor|]. apply (wso_drop _ [Did (Drawn (SWriteAt (Pair 0 1) [65345]%N)) AOk; Did (Drawn (SWriteStr [97]%N)) AOk] AOk). constructor.
    + exists []. apply (wso_draw (SWriteStyledAt (Pair 1 0) (Some Red) None None [65346]%N)). apply wso_show. constructor.
    + exists [[Did (Asked CInvisible) AOk]]. apply (wso_input None SRead _ (AOther 113%N)); [left; eauto|]. apply wso_mode. constructor.
    + exists []. destruct i; constructor.
  - intros d Hd. cbn in Hd. repeat (destruct Hd as [<-|Hd]; [eexists; reflexivity|]). destruct Hd.
  - apply win_gentleb_ok. vm_compute. reflexivity.
  - apply (sharing_duo_ok (some_view 6 2 0 1 SPACE) [guarded; unguarded; waiting]
      (map (fun i => (i, CResize (inr (Size 2 5)))) ([2] ++ repeat 1 3 ++ repeat 0 7 ++ repeat 1 6)) (fun v =>
      match map (fun p => v_cell v (fst p) (snd p)) [(0, 0); (0, 1); (0, 2); (0, 3); (1, 0); (1, 1); (1, 2)]%Z with
      | [(32, 7); (65345, 7); (1179457, 7); (97, 7); (65346, 4); (1179458, 4); (32, 7)]%N => true
      | _ => false
      end)).
    vm_compute. reflexivity.
Qed.
