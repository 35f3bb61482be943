(** Property theorems for threads that draw on one screen or write to one terminal on
    Windows (C111, C112). *)
From Verif Require Import Base M_Utf8 S_Utf8 M_Geom S_Geom M_Attr M_Buf S_Buf M_Writer M_Api M_ScreenApi M_Locks S_Locks S_Together P_Together2
  Prop_Together M_WinWriter S_WinWriter M_WinReader M_WinScreen S_WinScreen P_WinDraw2 S_WinCanvas M_WinApi S_WinApi Prop_WinApi
  M_WinLocks S_WinLocks M_WinShare S_WinTogether P_WinTogether P_WinSched.
From Verif Require S_Canvas P_WinWriter M_Prepare.
Import S_Canvas.

(** C111: any number of threads share a screen in use on Windows (whose canvas is [k]); each
    calls drawing methods and [refresh], and draws and refreshes through write guards, with
    text that takes one position per character.  If the size has just changed, the window
    covers the buffer.  However they are scheduled: once all have finished and no access has
    failed, there is an order of everything they did, in which each thread's doings come in
    its order and nothing comes between the strokes of a guard, such that the screen holds
    the canvas drawn in that order, and the console shows the canvas of the last refresh or
    dropped guard in that order, with the cursor at its pen (and is as before if there is
    none). *)
Theorem C111_one_picture : forall draw shown E, places draw shown -> env_ok E -> (32767 <= Z.of_nat (umax E))%Z ->
  forall (progs : list (list doing)) s k r tr c t' d', wpainted draw shown E s k r ->
  (r = true -> covers (sees s)) -> Forall (Forall (single_doing E shown)) progs ->
  wrun (screen_access draw E (g_state s) (g_old s)) (wstart (map doings_client progs) (wshare s)) tr c ->
  wfinished c -> S_Together.no_failure tr -> wshared c = (Some t', Some d') ->
  exists order : list (nat * doing), (forall i, done_by i order = nth i progs []) /\
    let l := concat (map strokes (map snd order)) in
    holds (dbuf d') (picture E l k) /\
    match S_Together.displayed E l k None with
    | Some k' => wdisplays shown (t_default (g_t s)) (c_view (w_con (t_w t'))) k' /\
        v_cur (c_view (w_con (t_w t'))) = Coord (Z.of_nat (column (pen_goal k'))) (Z.of_nat (line (pen_goal k')))
    | None => t' = g_t s
    end.
Proof. exact wthreads_draw. Qed.
Print Assumptions C111_one_picture.

(** C111, areas: if each thread draws in an area of its own and ends with a refresh or a
    dropped guard, the schedule does not matter: in each area the console shows what its
    thread alone would have drawn, and the rest is as before. *)
Theorem C111_own_areas : forall draw shown E, places draw shown -> env_ok E -> (32767 <= Z.of_nat (umax E))%Z ->
  forall (areas : nat -> area) (progs : list (list doing)) s k r tr c t' d', wpainted draw shown E s k r ->
  (r = true -> covers (sees s)) ->
  (forall i j l c, i <> j -> areas i l c -> ~ areas j l c) ->
  (forall i d, In d (nth i progs []) -> keeps_to E (ksize k) (areas i) d) ->
  Forall (Forall (single_doing E shown)) progs -> progs <> [] -> Forall ends_shown progs ->
  wrun (screen_access draw E (g_state s) (g_old s)) (wstart (map doings_client progs) (wshare s)) tr c ->
  wfinished c -> S_Together.no_failure tr -> wshared c = (Some t', Some d') ->
  let v := c_view (w_con (t_w t')) in
  size_of_view v = ksize k /\
  forall p, in_bounds p (ksize k) ->
    (forall i, areas i (line p) (column p) ->
       cell_shows shown (t_default (g_t s)) v p (ink (picture E (concat (map strokes (nth i progs []))) k) (line p) (column p))) /\
    ((forall i, ~ areas i (line p) (column p)) ->
       cell_shows shown (t_default (g_t s)) v p (ink k (line p) (column p))).
Proof. exact wown_areas. Qed.
Print Assumptions C111_own_areas.

(** The threads of C105's and of C106's examples, on a console of 2 lines and 6 columns. *)
Definition ex_shared : wscr := some_screen (some_view 6 2 0 1 SPACE) [].
Definition ex_shows (l : list (N * N * N * N)) (t : option wterm) (d : option sdata) : bool :=
  match t, d with
  | Some t, Some d => forallb (fun x => let '(y, x, g, w) := x in
      let '(g', w') := v_cell (c_view (w_con (t_w t))) (Z.of_N y) (Z.of_N x) in (g =? g')%N && (w =? w')%N) l
  | _, _ => false
  end.

Lemma ex_single progs : forallb (forallb (fun d => forallb (fun s => match s with
    | Draw m => forallb (fun c => (32 <=? c) && (c <? 127))%N (method_text m) | Show => true end) (strokes d))) progs = true ->
  Forall (Forall (single_doing wide_env demo_shown)) progs.
Proof.
  rewrite forallb_forall, Forall_forall. intros H l Hl. specialize (H l Hl). rewrite forallb_forall in H.
  apply Forall_forall. intros d Hd. specialize (H d Hd). rewrite forallb_forall in H.
  unfold single_doing. apply Forall_forall. intros [m|] Hs; [|exact I]. specialize (H _ Hs). cbn in H. rewrite forallb_forall in H.
  apply Forall_forall. intros c Hc. specialize (H c Hc). right. right. right.
  unfold wide_env. cbn [demo_env combining cwidth]. split; [lia|]. split.
  - intros (_ & Hw). cbn [demo_env cwidth] in Hw. unfold demo_width in Hw.
    destruct (_ || _) in Hw; [discriminate Hw|]. replace ((768 <=? c) && (c <=? 879))%N with false in Hw by lia.
    replace ((65281 <=? c) && (c <=? 65376))%N with false in Hw by lia. discriminate Hw.
  - intros _. unfold demo_shown. replace (c <? 65536)%N with true by lia. intros Q; discriminate Q.
Qed.

Lemma ex_shared_painted : wpainted demo_draw demo_shown wide_env ex_shared (blank_canvas (Size 2 6)) false.
Proof.
  assert (H : is_ret (win_screen_new wide_env M_Prepare.default_config (some_term (some_view 6 2 0 1 SPACE) [])) = true)
    by (vm_compute; reflexivity).
  apply made_ok in H. destruct H as (t1 & H).
  refine (WP_new demo_draw demo_shown wide_env M_Prepare.default_config (some_term (some_view 6 2 0 1 SPACE) []) t1 _ _ _ _ _ _ H).
  - split; [reflexivity|]. intros [].
  - unfold view_ok; cbn; lia.
  - reflexivity.
  - reflexivity.
  - reflexivity.
Qed.

Example C111_example :
  places demo_draw demo_shown /\ env_ok wide_env /\ (32767 <= Z.of_nat (umax wide_env))%Z /\
  wpainted demo_draw demo_shown wide_env ex_shared (blank_canvas (Size 2 6)) false /\
  Forall (Forall (single_doing wide_env demo_shown)) demo_doings /\
  Forall (Forall (single_doing wide_env demo_shown)) demo_lines /\
  (exists tr c, wrun (screen_access demo_draw wide_env (g_state ex_shared) (g_old ex_shared))
      (wstart (map doings_client demo_doings) (wshare ex_shared)) tr c /\ wfinished c /\ S_Together.no_failure tr /\
    ex_shows [(0, 0, 97, 4); (0, 1, 98, 4); (0, 2, 99, 12); (0, 3, 120, 12)]%N (fst (wshared c)) (snd (wshared c)) = true) /\
  exists tr c, wrun (screen_access demo_draw wide_env (g_state ex_shared) (g_old ex_shared))
      (wstart (map doings_client demo_lines) (wshare ex_shared)) tr c /\ wfinished c /\ S_Together.no_failure tr /\
    ex_shows [(0, 0, 32, 7); (0, 1, 99, 7); (0, 2, 98, 4); (1, 0, 120, 15)]%N (fst (wshared c)) (snd (wshared c)) = true.
Proof.
  split; [exact demo_places|]. split; [exact wide_env_ok|]. split; [exact wide_env_max|].
  split; [exact ex_shared_painted|]. split; [apply ex_single; reflexivity|]. split; [apply ex_single; reflexivity|].
  split.
  - apply (wends_ok (screen_access demo_draw wide_env (g_state ex_shared) (g_old ex_shared)) (map doings_client demo_doings) (wshare ex_shared)
      ([1; 1; 1] ++ repeat 0 8 ++ [1; 1; 1] ++ repeat 1 6)). vm_compute. reflexivity.
  - apply (wends_ok (screen_access demo_draw wide_env (g_state ex_shared) (g_old ex_shared)) (map doings_client demo_lines) (wshare ex_shared)
      (repeat 0 6 ++ [1; 1; 1] ++ repeat 0 6 ++ repeat 1 6)). vm_compute. reflexivity.
Qed.

(** C112: any number of threads share a terminal on Windows; each acquires write guards,
    calls methods of them and drops them, and calls methods of the terminal.  However they
    are scheduled: once all have finished and no access has failed, there is an order of
    everything they did, in which each thread's doings come in its order and nothing comes
    between the calls of a guard, such that the console is as the documented effects of the
    calls, one after the other, make it. *)
Theorem C112_one_after_the_other : forall draw default E, S_WinApi.draws draw -> (default < 65536)%N -> (65536 <= Z.of_nat (umax E))%Z ->
  forall (progs : list (list writing)) s F tr c s', faces default (w_con s) F -> f_attrs F = w_at s -> view_ok (f_view F) ->
  Forall (Forall scalar_writing) progs ->
  wrun (console_access draw E default) (wstart (map writings_client progs) (Some s, tt)) tr c ->
  wfinished c -> S_Together.no_failure tr -> wshared c = (Some s', tt) ->
  exists (order : list (nat * writing)) F', (forall i, done_by i order = nth i progs []) /\
    win_effects draw default (concat (map calls (map snd order))) F F' /\ faces default (w_con s') F'.
Proof. exact wthreads_write. Qed.
Print Assumptions C112_one_after_the_other.

(** Two threads on C99's console: the first clears the screen and then writes "a" and "b"
    in red through a guard; the second moves by nothing, goes to the first column before the
    guard is acquired, and writes "x" after it is dropped. *)
Definition ex_writings : list (list writing) :=
  [[Single TClearScreen; Message [TSetFg (Some Red); TWriteChar 97%N; TWriteStr [98]%N; TClearAttributes]];
   [Single (TMoveLeft 0); Single TMoveToFirstColumn; Single (TWriteStr [120]%N)]].

Example C112_example :
  let E := demo_env (Z.to_nat 65536) in
  let s := Wins no_attrs ex_console in
  S_WinApi.draws demo_draw /\ (65536 <= Z.of_nat (umax E))%Z /\ Forall (Forall scalar_writing) ex_writings /\
  faces 7 (w_con s) (Face (c_view ex_console) no_attrs (25%N, true)) /\ view_ok (c_view ex_console) /\
  exists tr c, wrun (console_access demo_draw E 7) (wstart (map writings_client ex_writings) (Some s, tt)) tr c /\ wfinished c /\
    S_Together.no_failure tr /\
    match fst (wshared c) with
    | Some s' => map (v_cell (c_view (w_con s')) 0) [0; 1; 2; 3]%Z = [(97, 4); (98, 4); (120, 7); (32, 7)]%N
    | None => False
    end.
Proof.
  cbv zeta. split; [exact demo_draws|]. split; [cbn [umax demo_env]; lia|].
  split; [repeat constructor; unfold scalar; cbn; lia|].
  split; [split; [reflexivity|]; split; [exact (P_WinWriter.word_shows 7 no_attrs eq_refl)|reflexivity]|].
  split; [vm_compute; intuition discriminate|].
  destruct (wends_ok (console_access demo_draw (demo_env (Z.to_nat 65536)) 7) (map writings_client ex_writings)
    (Some (Wins no_attrs ex_console), tt) ([0; 0; 0] ++ [1; 1; 1] ++ repeat 0 6 ++ [1; 1; 1])
    (fun w _ => match w with Some s' => forallb (fun x => let '(x, g, w) := x in
       let '(g', w') := v_cell (c_view (w_con s')) 0 (Z.of_N x) in (g =? g')%N && (w =? w')%N) [(0, 97, 4); (1, 98, 4); (2, 120, 7); (3, 32, 7)]%N | None => false end))
    as (tr & c & H1 & H2 & H3 & H4).
  - vm_compute. reflexivity.
  - exists tr, c. split; [exact H1|]. split; [exact H2|]. split; [exact H3|].
    destruct (fst (wshared c)) as [s'|]; [|discriminate H4]. cbn [forallb] in H4. cbn [map].
    cbn [Z.of_N] in H4. repeat match type of H4 with context [v_cell ?v ?y ?x] => destruct (v_cell v y x) as [? ?] end.
    repeat match type of H4 with context [N.eqb ?a ?b] => destruct (N.eqb_spec a b); [subst|try discriminate H4] end; reflexivity.
Qed.
