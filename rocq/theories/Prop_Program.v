(** Property theorem for any programs that share a [Screen] (C116). *)
From Verif Require Import Base M_Utf8 M_Geom S_Geom M_Attr M_Buf S_Buf P_Buf3 M_Writer S_Tty S_Writer S_Emu P_Emu M_Screen S_Screen P_Screen5
  M_ScreenApi S_Canvas M_Locks S_Locks S_Together P_Sched S_Loop S_CursorMode S_Program P_Program2 P_Program3.

(** C116: any number of threads share a screen in use (whose canvas is [k]), each running any
    program of calls of the methods of [Screen] and its guards that follows the rules for
    the guards (C52) and writes no double-width text; what a program does next may depend on
    everything that was answered.  However they are scheduled: once all have finished, and
    no access to the terminal has failed, there is an order of all that was drawn, shown,
    asked of the cursor and read about the size, in pieces that are not mixed, in which the
    pieces of each thread are what its program does and the sizes are those that were read,
    such that the screen holds the canvas that results from them in that order.  Since the last change of the size (or since the
    beginning, if there is none), the terminal (any terminal of the new size) was sent what
    makes it show the canvas of the last refresh or dropped guard, with the cursor visible
    or not as asked last.  It has received all of it if the last refresh or dropped guard
    came after the last [set_cursor_mode]. *)
Theorem C116_share_screen : forall E C K, env_ok E -> env_chars E -> caps_coherent C -> implements E C K ->
  forall (progs : list client) s t k tr c w' d', painted E C K s t k -> wat (wr s) = no_attrs ->
  Forall (fun p => follows true None None p /\ screen_program E p) progs ->
  run E C (start progs (share s)) tr c -> finished c -> no_failure tr -> not_continued tr ->
  usable_sizes tr -> shared c = (Some w', Some d') ->
  exists order : list (nat * list mark), (forall i, did None (nth i progs Finish) (done_by i order)) /\
    (forall sz, In (Fitted sz) (concat (map snd order)) <-> exists i r, In (EvAct i (AD (DUpdateSize sz)) r) tr) /\
    let l := concat (map snd order) in
    holds (dbuf d') (marked E l k) /\
    exists pre post x y, l = pre ++ post /\ one_size post /\ (pre = [] \/ exists p sz, pre = p ++ [Fitted sz]) /\
      stream w' = stream (wr s) ++ x ++ y /\ (pre = [] -> x = []) /\ (sent_all post false = true -> obuf w' = []) /\
      forall t' v0, (pre = [] -> t' = t) -> (pre <> [] -> of_size K (ksize (marked E pre k)) t') -> look K t' = Some v0 ->
        exists v, look K (feed K t' y) = Some v /\
          (has C CursorNormal = true -> has C CursorInvisible = true -> vvis v = asked post (vvis v0)) /\
          match last_shown E post (marked E pre k) None with
          | Some k' => displays C v k' /\ vcur v = pen_goal k'
          | None => vcells v = vcells v0 /\ vcur v = vcur v0
          end.
Proof. exact share_screen. Qed.
Print Assumptions C116_share_screen.

(** The program examples/screen_threads.rs, on a smaller screen: the main thread holds the
    read guard and reads events until 'q' (it reads at most [n] here) and other threads
    write their names, each on its line, through the write guard. *)
Fixpoint events_until_q (n : nat) : client :=
  match n with
  | 0 => Call SRDrop (fun _ => Finish)
  | S n => Call SRRead (fun r => if match r with AOther c => (c =? 113)%N | _ => false end then Call SRDrop (fun _ => Finish) else events_until_q n)
  end.
Definition main_thread (n : nat) : client := Call SLockRead (fun _ => events_until_q n).
Fixpoint draw_all (l : list smethod) (k : client) : client :=
  match l with
  | [] => k
  | m :: l => Call (SWBuf (sforward m)) (fun _ => draw_all l k)
  end.
Definition put_name (name : list N) (line : nat) (c : color) (k : client) : client :=
  draw_all [SSetCursor (Pair line 0); SWriteStr [91]%N; SBold; SSetFg (Some c); SWriteStr name; SClearAttributes;
            SWriteStr [93]%N; SSetCursor (Pair 0 0)] (Call SWRefresh (fun _ => k)).
Definition worker (name : list N) (line : nat) (c : color) : client :=
  Call SLockWrite (fun _ => put_name name line c (Call SWDrop (fun _ => Finish))).
(** One more thread: when the screen is busy it waits, then hides the cursor and draws. *)
Definition eager (name : list N) (line : nat) (c : color) : client :=
  let body := Call (SWSetCursorMode CInvisible) (fun _ => put_name name line c (Call SWDrop (fun _ => Finish))) in
  Call STryLockWrite (fun r => match r with AOk => body | _ => Call SLockWrite (fun _ => body) end).

Lemma draw_all_follows l k w : follows true None (Some w) k -> w = OfScreen -> follows true None (Some w) (draw_all l k).
Proof. intros H ->. induction l as [|m l IH]; [exact H|]. cbn. split; [reflexivity|]. intros _. exact IH. Qed.
Lemma draw_all_screen E l k : screen_program E k -> Forall (fun m => no_wide E (method_text m)) l -> screen_program E (draw_all l k).
Proof. intros H. induction 1 as [|m l Hm _ IH]; [exact H|]. cbn. split; [eauto|]. intros _. exact IH. Qed.
Lemma events_follow n : follows true (Some OfScreen) None (events_until_q n) .
Proof.
  induction n as [|n IH]; cbn; [repeat split|]. split; [auto|]. intros a.
  destruct (match a with AOther c => (c =? 113)%N | _ => false end); [|exact IH]. cbn. repeat split.
Qed.
Lemma events_screen E n : screen_program E (events_until_q n).
Proof.
  induction n as [|n IH]; cbn; [repeat split|]. split; [auto|]. intros a.
  destruct (match a with AOther c => (c =? 113)%N | _ => false end); [|exact IH]. cbn. repeat split.
Qed.
Lemma put_name_follows name line c k : follows true None (Some OfScreen) k -> follows true None (Some OfScreen) (put_name name line c k).
Proof. intros H. apply draw_all_follows; [|reflexivity]. cbn. split; [reflexivity|]. intros _. exact H. Qed.
Lemma put_name_screen name line c k : screen_program (demo_env 1000) k -> no_wide (demo_env 1000) name ->
  screen_program (demo_env 1000) (put_name name line c k).
Proof.
  intros H Hn. apply draw_all_screen.
  - cbn. split; [exact I|]. intros _. exact H.
  - repeat (apply Forall_cons); try (apply Forall_nil); cbn; try exact Hn;
      try (intros (_ & X); discriminate).
Qed.

Example C116_example :
  let E := demo_env 1000 in
  let progs := [main_thread 5; worker [97; 98]%N 1 Red; eager [99]%N 2 Blue] in
  Forall (fun p => follows true None None p /\ screen_program E p) progs /\
  exists s t tr c w' d' x y v, painted E ansi_cfg (ansi_tty E) s t (blank_canvas (Size 4 6)) /\ wat (wr s) = no_attrs /\
    run E ansi_cfg (start progs (share s)) tr c /\ finished c /\ no_failure tr /\
    not_continued tr /\ usable_sizes tr /\ shared c = (Some w', Some d') /\ stream w' = x ++ y /\
    of_size (ansi_tty E) (Size 3 5) (emu_new (Size 3 5)) /\
    look (ansi_tty E) (feed (ansi_tty E) (emu_new (Size 3 5)) y) = Some v /\
    match vcells v with
    | [_; _; _; _; _; VC a _; VC b _; VC c _; VC d _; _; VC e _; VC f _; VC g _; _; _] =>
        bytes_eqb (a ++ b ++ c ++ d ++ e ++ f ++ g) [91; 97; 98; 93; 91; 99; 93]%N && negb (vvis v)
    | _ => false
    end = true.
Proof.
  cbv zeta. split.
  { assert (H : forall name line c, no_wide (demo_env 1000) name -> forall k, k = Call SWDrop (fun _ => Finish) ->
      follows true None (Some OfScreen) (put_name name line c k) /\ screen_program (demo_env 1000) (put_name name line c k)).
    { intros name line c Hn k ->. split; [apply put_name_follows|apply put_name_screen; [|exact Hn]]; cbn; repeat split. }
    assert (N1 : no_wide (demo_env 1000) [99]%N) by (constructor; [|constructor]; intros (_ & X); discriminate).
    assert (N2 : no_wide (demo_env 1000) [97; 98]%N) by (constructor; [|constructor; [|constructor]]; intros (_ & X); discriminate).
    repeat (apply Forall_cons); [| | |constructor].
    - split; cbn; (split; [repeat split; auto|]); intros _; [exact (events_follow 5)|exact (events_screen _ 5)].
    - split; cbn [follows screen_program worker allowed]; (split; [reflexivity || exact I|]); intros a; apply H; auto.
    - assert (B := H [99]%N 2 Blue N1 _ eq_refl). clear H N1 N2.
      unfold eager. set (q := put_name _ _ _ _) in *. clearbody q. destruct B as [B1 B2].
      split; cbn; (split; [reflexivity || exact I|]); intros []; cbn; repeat (split; [reflexivity || exact I|]; intros _); assumption. }
  apply (sharing_ok (demo_env 1000) (demo_env_ok 1000) (Size 4 6) (alls 20) [main_thread 5; worker [97; 98]%N 1 Red; eager [99]%N 2 Blue]
    (map (fun i => (i, CResize (inr (Size 3 5)))) ([0; 1; 1; 1; 2; 2] ++ repeat 1 12 ++ repeat 0 7))
    (map (fun i => (i, COther 113%N)) (repeat 2 16 ++ repeat 0 2)) (Size 3 5) (fun v =>
    match vcells v with
    | [_; _; _; _; _; VC a _; VC b _; VC c _; VC d _; _; VC e _; VC f _; VC g _; _; _] =>
        bytes_eqb (a ++ b ++ c ++ d ++ e ++ f ++ g) [91; 97; 98; 93; 91; 99; 93]%N && negb (vvis v)
    | _ => false
    end)).
  - small.
  - repeat (apply Forall_cons; [constructor|]). apply Forall_forall. intros r [].
  - vm_compute. reflexivity.
Qed.
