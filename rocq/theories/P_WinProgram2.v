(** Proofs about any programs that share a [Screen] on Windows (C117): the picture. *)
From Verif Require Import Base M_Utf8 S_Utf8 M_Geom S_Geom M_Attr M_Buf S_Buf M_Writer S_Tty S_Writer M_Screen M_ScreenApi M_Api
  M_Locks S_Locks P_Locks P_Locks2 S_Together P_Together P_Together2 M_WinWriter S_WinWriter M_WinReader M_WinScreen S_WinScreen P_WinScreen
  S_WinCanvas P_WinCanvas M_WinLocks S_WinLocks P_WinLocks P_WinLocks2 P_WinLocks3 M_WinShare S_WinTogether P_WinTogether P_Loop
  S_WinCursor P_WinCursor S_Program P_Program P_Program2 S_WinProgram P_WinProgram.
From Verif Require S_Canvas P_Canvas.
Import S_Canvas.

Lemma cursor_after_app l1 : forall l2 i, cursor_after (l1 ++ l2) i = cursor_after l2 (cursor_after l1 i).
Proof. induction l1 as [|[m| |m|sz] l1 IH]; intros l2 i; cbn; auto. Qed.

Section WinProgram.
  Variables (draw : list N -> N -> view -> view) (shown : list N -> option N) (E : env).
  Hypothesis HP : places draw shown.
  Hypothesis HE : env_ok E.
  Hypothesis HU : (32767 <= Z.of_nat (umax E))%Z.

  Definition winked (s0 s : wscr) (k : canvas) (last : option canvas) (i : N * bool) : Prop :=
    (g_state s = g_state s0 /\ g_old s = g_old s0 /\ t_default (g_t s) = t_default (g_t s0)) /\
    (exists r, wpainted draw shown E s k r /\ (r = true -> covers (sees s))) /\
    c_cursor (w_con (t_w (g_t s))) = i /\
    match last with
    | Some k' => wshown_as shown (t_default (g_t s0)) (g_t s) k'
    | None => c_view (w_con (t_w (g_t s))) = c_view (w_con (t_w (g_t s0)))
    end.
  Let M s0 := screen_access draw E (g_state s0) (g_old s0).
  Let T (m : smethod) : Prop := Forall (single E shown) (method_text m).

  Lemma winked_draw s0 s k last i m b : winked s0 s k last i -> T m ->
    screen_method E m (g_sb s) = Val b -> winked s0 (with_gsb b s) (S_Canvas.draw E m k) last i.
  Proof.
    intros (X1 & (r & X2 & X3) & X4) Hn Hm. split; [exact X1|]. split; [|destruct last; exact X4].
    exists r. split; [eapply WP_method; eassumption|exact X3].
  Qed.
  Lemma winked_show s0 s k last i s' : winked s0 s k last i -> win_refresh draw E s = Ret s' tt -> winked s0 s' k (Some k) i.
  Proof.
    intros ((X1 & X1' & X1'') & (r & X2 & X3) & X5 & X4) Hr.
    assert (St := stays_refresh draw E s). assert (Sc := g_refresh draw E s). rewrite Hr in St, Sc. destruct St as (S1 & S2 & _ & _ & _ & _ & S3 & _).
    destruct (winpainting_shows draw shown E HP HE s k r HU X2) as (_ & _ & P). specialize (P s' tt X3 Hr).
    split; [repeat split; congruence|]. split; [|split].
    - exists false. split; [eapply WP_refresh; eassumption|discriminate].
    - cbn in Sc. congruence.
    - rewrite <- X1''. exact P.
  Qed.
  Lemma winked_mode s0 s k last i m s' : winked s0 s k last i -> run_wsop draw E (SCursorMode m) s = Ret s' tt ->
    winked s0 s' k last (cursor_of m).
  Proof.
    intros ((X1 & X1' & X1'') & (r & X2 & X3) & X5 & X4) Hr. assert (Sc := g_mode draw E m s). rewrite Hr in Sc.
    assert (St : g_state s' = g_state s /\ g_old s' = g_old s /\ t_default (g_t s') = t_default (g_t s) /\
      c_view (w_con (t_w (g_t s'))) = c_view (w_con (t_w (g_t s))) /\ g_sb s' = g_sb s).
    { cbn [run_wsop] in Hr. unfold on_term, on_wins, win_set_cursor_mode, set_cursor_info, ask in Hr.
      destruct (c_answers _) as [|[e|n] l]; cbn in Hr; try discriminate Hr; injection Hr as <-; repeat split. }
    destruct St as (S1 & S2 & S3 & S4 & S5). split; [repeat split; congruence|]. split; [|split; [exact Sc|]].
    - exists r. split; [eapply WP_mode; eassumption|]. intros Hx. specialize (X3 Hx). unfold sees in *. now rewrite S4.
    - destruct last; [unfold wshown_as in *; now rewrite S4|congruence].
  Qed.

  Definition wusable_mark (x : mark) : Prop := wgood_mark T x.
  Lemma wmark_replay s0 s k last i x r rest w' d' : winked s0 s k last i -> wusable_mark x ->
    wreplays (M s0) ((mark_act x, r) :: rest) (wshare s) (Some w', Some d') -> (forall e, r <> AErr e) ->
    exists s', wreplays (M s0) rest (wshare s') (Some w', Some d') /\
      winked s0 s' (marked E [x] k) (last_shown E [x] k last) (cursor_after [x] i).
  Proof.
    intros Hd Hx H Hf. assert (Hg := walive draw E _ _ _ _ _ _ _ H).
    cbn [wreplays] in H. destruct H as [H1 H2]. destruct x as [m| |m|sz]; cbn [mark_act] in *; [| | |destruct Hx].
    - unfold M, wshare, wmeans, screen_access in H1, H2. cbn [on_data dbuf dclr dreal] in H1, H2.
      destruct (run_buf_op E (g_sb s) (sforward m)) as [b|] eqn:Eb; cbn [fst snd] in H1, H2; [|congruence].
      exists (with_gsb b s). split; [exact H2|]. exact (winked_draw _ _ _ _ _ _ _ Hd Hx Eb).
    - destruct (wshow_means draw E s0 s r (proj1 (proj1 Hd)) (proj1 (proj2 (proj1 Hd))) H1 Hg Hf) as (s' & R1 & R2). unfold M in H2. rewrite R1 in H2.
      exists s'. split; [exact H2|]. exact (winked_show _ _ _ _ _ _ Hd R2).
    - assert (Q : exists s', run_wsop draw E (SCursorMode m) s = Ret s' tt /\ fst (wmeans (M s0) (AW (WOp (OSetCursorMode m))) (wshare s)) = wshare s').
      { unfold M, wshare, wmeans, screen_access in H1 |- *. cbn [on_writer run_win run_wsop] in H1 |- *. unfold on_term.
        destruct (on_wins (win_set_cursor_mode m) (g_t s)) as [t []|t e| |] eqn:Et; cbn [told fst snd] in H1 |- *; try congruence.
        eexists. split; reflexivity. }
      destruct Q as (s' & Q1 & Q2). rewrite Q2 in H2. exists s'. split; [exact H2|]. exact (winked_mode _ _ _ _ _ _ _ Hd Q1).
  Qed.
  Lemma wmarks_replay s0 q : forall s k last i rs rest w' d', winked s0 s k last i -> Forall wusable_mark q ->
    map fst rs = map mark_act q -> mute rs -> wreplays (M s0) (rs ++ rest) (wshare s) (Some w', Some d') ->
    exists s', wreplays (M s0) rest (wshare s') (Some w', Some d') /\
      winked s0 s' (marked E q k) (last_shown E q k last) (cursor_after q i).
  Proof.
    induction q as [|x q IH]; intros s k last i rs rest w' d' Hd Hn Hm Hf H.
    - destruct rs; [|discriminate Hm]. exists s. auto.
    - destruct rs as [|[a r] rs]; [discriminate Hm|]. cbn [map fst] in Hm. injection Hm as -> Hm.
      inversion Hn as [|? ? N1 N2]; subst. destruct (mute_cons _ _ _ Hf) as [Hr Hf']. cbn [app] in H.
      destruct (wmark_replay _ _ _ _ _ _ _ _ _ _ Hd N1 H Hr) as (s1 & H1 & D1).
      destruct (IH _ _ _ _ _ _ _ _ D1 N2 Hm Hf' H1) as (s2 & H2 & D2). exists s2. split; [exact H2|]. destruct x; exact D2.
  Qed.

  Lemma wmv_replay s0 x s k last i rs rest w' d' : winked s0 s k last i -> wgood_mv T x ->
    map fst rs = wmv_acts x -> mute rs -> wreplays (M s0) (rs ++ rest) (wshare s) (Some w', Some d') ->
    exists s', wreplays (M s0) rest (wshare s') (Some w', Some d') /\
      winked s0 s' (marked E (concat (vis x)) k) (last_shown E (concat (vis x)) k last) (cursor_after (concat (vis x)) i).
  Proof.
    intros Hd Hn Hm Hf H.
    assert (G : forall q, Forall wusable_mark q -> map fst rs = map mark_act q -> exists s', wreplays (M s0) rest (wshare s') (Some w', Some d') /\
      winked s0 s' (marked E q k) (last_shown E q k last) (cursor_after q i)).
    { intros q Hq Hmq. exact (wmarks_replay s0 q _ _ _ _ _ _ _ _ Hd Hq Hmq Hf H). }
    destruct x as [x|g| |]; cbn [vis concat wmv_acts wgood_mv app] in *; rewrite ?app_nil_r.
    - destruct x as [m| |m|sz]; try (apply G; [constructor; [exact Hn|constructor]|exact Hm]).
      apply (G [Shown; Shown]); [repeat constructor|exact Hm].
    - apply G; [apply Forall_app; split; [exact Hn|repeat constructor]|]. now rewrite map_app, Hm.
    - apply (G []); [constructor|exact Hm].
    - apply (G []); [constructor|exact Hm].
  Qed.
  Lemma wmvs_replay s0 plan : forall order s k last i w' d', winked s0 s k last i -> Forall (wgood_mv T) plan ->
    map (map fst) order = map wmv_acts plan -> mute (concat order) ->
    wreplays (M s0) (concat order) (wshare s) (Some w', Some d') ->
    let l := concat (flat_map vis plan) in
    exists s', wshare s' = (Some w', Some d') /\ winked s0 s' (marked E l k) (last_shown E l k last) (cursor_after l i).
  Proof.
    induction plan as [|x plan IH]; intros order s k last i w' d' Hd Hn Hm Hf H; cbv zeta.
    - destruct order; [|discriminate Hm]. cbn in H. exists s. auto.
    - destruct order as [|rs order]; [discriminate Hm|]. cbn [map] in Hm. injection Hm as M1 M2. cbn [concat] in H, Hf.
      apply mute_app in Hf. inversion Hn as [|? ? N1 N2]; subst.
      destruct (wmv_replay s0 x _ _ _ _ _ _ _ _ Hd N1 M1 (proj1 Hf) H) as (s1 & H1 & A1).
      destruct (IH order _ _ _ _ _ _ A1 N2 M2 (proj2 Hf) H1) as (s2 & H2 & A2).
      exists s2. split; [exact H2|]. cbn [flat_map]. rewrite concat_app, marked_app, last_shown_app, cursor_after_app. exact A2.
  Qed.

  Lemma wanswer_kind s0 a s : snd (wmeans (M s0) a s) = AOk \/ snd (wmeans (M s0) a s) = AGone \/ exists e, snd (wmeans (M s0) a s) = AErr e.
  Proof.
    destruct s as [w d]. unfold M, screen_access. destruct a as [a|a|]; cbn [wmeans on_writer on_data on_both].
    - destruct w as [w|]; [|cbn; auto]. destruct a; cbn; auto. destruct (on_wins _ w); cbn; eauto.
    - destruct d as [d|]; [|cbn; auto]. destruct a; [destruct (run_buf_op E (dbuf d) o)|destruct (sb_resize E (dbuf d) sz)]; cbn; auto.
    - destruct w as [w|]; [|cbn; auto]. destruct d as [d|]; [|cbn; auto]. destruct (win_refresh draw E _); cbn; eauto.
  Qed.
  Lemma wreplays_ok s0 l : forall s w' d', wreplays (M s0) l s (Some w', Some d') -> mute l -> forall a r, In (a, r) l -> r = AOk.
  Proof.
    induction l as [|[b q] l IH]; intros s w' d' H Hf a r Hi; [destruct Hi|destruct Hi as [Hi|Hi]].
    - injection Hi as -> ->. assert (Hg := walive draw E _ _ _ _ _ _ _ H). destruct (mute_cons _ _ _ Hf) as [He _].
      destruct H as [H _]. destruct (wanswer_kind s0 a s) as [A|[A|(e & A)]]; rewrite H in A; auto; [congruence|]. destruct (He e A).
    - destruct (mute_cons _ _ _ Hf) as [_ Hf']. destruct H as [_ H]. exact (IH _ _ _ H Hf' a r Hi).
  Qed.

  Lemma wshare_screen (progs : list client) s k r tr c t' d' : wpainted draw shown E s k r -> (r = true -> covers (sees s)) ->
    Forall (fun p => S_Locks.follows true None None p /\ drawing_program (fun m => Forall (single E shown) (method_text m)) p) progs ->
    wrun (screen_access draw E (g_state s) (g_old s)) (wstart progs (wshare s)) tr c ->
    wfinished c -> S_Together.no_failure tr -> no_new_size tr -> wshared c = (Some t', Some d') ->
    exists order : list (nat * list mark), (forall i, did None (nth i progs Finish) (done_by i order)) /\
      let l := concat (map snd order) in
      one_size l /\ holds (dbuf d') (marked E l k) /\
      c_cursor (w_con (t_w t')) = cursor_after l (c_cursor (w_con (t_w (g_t s)))) /\
      match last_shown E l k None with
      | Some k' => wdisplays shown (t_default (g_t s)) (c_view (w_con (t_w t'))) k' /\
          v_cur (c_view (w_con (t_w t'))) = Coord (Z.of_nat (column (pen_goal k'))) (Z.of_nat (line (pen_goal k')))
      | None => c_view (w_con (t_w t')) = c_view (w_con (t_w (g_t s)))
      end.
  Proof.
    intros Hp Hcv Hn R F Hf Hc Hs.
    assert (L1 : Forall (wfollows true None None) progs) by (refine (Forall_impl _ _ Hn); intros p [H _]; now apply careful_follows).
    assert (L2 : Forall (wfollows false None None) progs) by (refine (Forall_impl _ _ L1); intros p; apply wfollows_less).
    assert (U := wfinished_unlocked _ _ _ _ _ L1 R F).
    destruct (wsessions_atomic _ _ _ tr c L2 R (U LWriter) (U LData)) as (order & O1 & O2).
    rewrite Hs in O2. assert (Hfine := mute_order order tr Hf O1).
    assert (Hok := wreplays_ok s _ _ _ _ O2 Hfine).
    assert (Hwalk : forall i, exists l, map (map fst) (sessions i tr) = map wmv_acts l /\ did None (nth i progs Finish) (flat_map vis l) /\
      Forall (wgood_mv T) l).
    { intros i. destruct (wjwalk_run _ i _ _ _ R) as (is & W1 & W2 & W3). rewrite (F i) in W1. cbn [wstart wthreads] in W1.
      assert (Hi : S_Locks.follows true None None (nth i progs Finish) /\ drawing_program T (nth i progs Finish)).
      { destruct (Nat.lt_ge_cases i (length progs)) as [Hi|Hi]; [apply (proj1 (Forall_forall _ _) Hn); now apply nth_In|].
        rewrite nth_overflow by exact Hi. repeat split. }
      assert (Hq : forall sz r, ~ In (JAct (AD (DUpdateSize sz)) r) is) by (intros sz r0 Hx; exact (Hc _ _ _ (W3 _ _ Hx))).
      assert (Hcur : wcur_ok T None []) by reflexivity.
      destruct (wclient_walks T (nth i progs Finish) None None is [] [] (proj1 Hi) (proj2 Hi) W1 Hq Hcur) as (ls & l & T1 & T2 & T3 & T4 & T5).
      cbn [holds_guard] in T1. rewrite T1 in W2. assert (Hls : sessions i tr = ls) by (unfold sessions; now rewrite W2).
      exists l. rewrite Hls. split; [|split; [|exact T4]].
      - clear - T2. induction T2 as [|x y xs ys H _ IH]; cbn; congruence.
      - apply T5. intros a r0 Hx. apply (Hok a r0). rewrite <- Hls, <- O1 in Hx. apply in_concat in Hx. destruct Hx as (z & Z1 & Z2).
        apply in_concat. exists z. split; [|exact Z2]. apply in_map_iff in Z1. destruct Z1 as (u & <- & Z1).
        apply in_map. apply filter_In in Z1. apply Z1. }
    assert (Hch : forall n, exists f : nat -> list mv, forall i, i < n -> map (map fst) (sessions i tr) = map wmv_acts (f i) /\
      did None (nth i progs Finish) (flat_map vis (f i)) /\ Forall (wgood_mv T) (f i)).
    { induction n as [|n [f Hfn]]; [exists (fun _ => []); intros i Hi; lia|]. destruct (Hwalk n) as (l & Hl).
      exists (fun i => if i =? n then l else f i). intros i Hi. destruct (Nat.eqb_spec i n) as [->|Hni]; [exact Hl|]. apply Hfn. lia. }
    destruct (Hch (length progs)) as (f & Hfl).
    set (want := fun i => if i <? length progs then f i else []).
    assert (Hend : forall i, length progs <= i -> sessions i tr = []).
    { intros i Hi. destruct (wjwalk_run _ i _ _ _ R) as (is & W1 & W2 & _). rewrite (F i) in W1. cbn [wstart wthreads] in W1.
      rewrite nth_overflow in W1 by exact Hi. inversion W1; subst. unfold sessions. now rewrite W2. }
    destruct (order_plan_of wmv_acts order want) as (plan & P1 & P2).
    { intros i. unfold done_by. rewrite O1. unfold want. destruct (Nat.ltb_spec i (length progs)) as [Hi|Hi].
      - apply Hfl, Hi.
      - now rewrite Hend. }
    assert (Hus : Forall (wgood_mv T) (map snd plan)).
    { apply Forall_forall. intros x Hx. apply in_map_iff in Hx. destruct Hx as ([j y] & Hy & Hx). cbn in Hy. subst y.
      assert (X : In x (want j)).
      { rewrite <- P1. unfold done_by. apply in_map_iff. exists (j, x). split; [reflexivity|]. apply filter_In. split; [exact Hx|]. apply Nat.eqb_refl. }
      unfold want in X. destruct (Nat.ltb_spec j (length progs)) as [Hi|Hi]; [|destruct X].
      destruct (Hfl j Hi) as (_ & _ & Q). exact (proj1 (Forall_forall _ _) Q x X). }
    assert (A0 : winked s s k None (c_cursor (w_con (t_w (g_t s))))) by (split; [auto|]; split; [eauto|]; split; reflexivity).
    destruct (wmvs_replay s (map snd plan) (map snd order) s k None _ t' d' A0 Hus P2 Hfine O2) as (s' & Q1 & Q2).
    exists (visible_marks plan). split.
    - intros i. rewrite visible_marks_by, P1. unfold want. destruct (Nat.ltb_spec i (length progs)) as [Hi|Hi]; [apply Hfl, Hi|].
      rewrite nth_overflow by exact Hi. constructor.
    - cbv zeta. rewrite visible_marks_snd. cbv zeta in Q2. split.
      + intros sz Hi. apply in_concat in Hi. destruct Hi as (z & Z1 & Z2). apply in_flat_map in Z1. destruct Z1 as (x & X1 & X2).
        rewrite Forall_forall in Hus. specialize (Hus x X1). destruct x as [x|g| |]; cbn in X2; try contradiction; destruct X2 as [<-|[]].
        * destruct Z2 as [->|[]]. exact Hus.
        * cbn in Hus. apply in_app_or in Z2. destruct Z2 as [Z2|[Z2|[]]]; [|discriminate Z2]. rewrite Forall_forall in Hus. exact (Hus _ Z2).
      + set (l := concat (flat_map vis (map snd plan))) in *. clearbody l.
        unfold wshare in Q1. injection Q1 as <- <-. cbn [dbuf]. destruct Q2 as (_ & (r' & X2 & _) & X3 & X4).
        split; [|split; [exact X3|exact X4]].
        destruct (wpainted_history draw shown E HP HE _ _ _ HU X2) as (_ & [_ _ _ HH] & _). exact HH.
  Qed.
End WinProgram.
