(** Proofs about any programs that share a [Screen] on Windows, also when accesses to the
    console fail (C123). *)
From Verif Require Import Base M_Utf8 S_Utf8 M_Geom S_Geom M_Attr M_Buf S_Buf M_Writer M_ScreenApi
  M_WinWriter S_WinWriter M_WinReader M_WinScreen S_WinScreen P_WinScreen M_Locks S_Locks P_Locks P_Locks2 S_Together S_Program P_Program P_Program2
  M_WinLocks S_WinLocks P_WinLocks P_WinLocks2 P_WinLocks3 M_WinShare S_WinTogether P_WinTogether P_WinProgram S_WideProgram S_OneThread P_OneThread S_WinOneThread.

Definition wso_ok (o : option (list deed)) (p : client) (is : list jinstr) : Prop :=
  forall don, exists l, fold_left jstep is (Sess (in_guard o) (in_guard o) (deeds_cur o) don) = Sess false false [] (don ++ map (map deed_act) l) /\
    wdid_so o p (filter some_deeds l).

Lemma wso_quiet o p q is js :
  (forall cur don, fold_left jstep js (Sess (in_guard o) (in_guard o) cur don) = Sess (in_guard o) (in_guard o) cur don) ->
  (forall l, wdid_so o q l -> wdid_so o p l) -> wso_ok o q is -> wso_ok o p (js ++ is).
Proof. intros Hj Hd Hq don. destruct (Hq don) as (l & L1 & L2). exists l. rewrite fold_left_app, Hj. auto. Qed.
Lemma wso_sessions p q is js v :
  (forall don, fold_left jstep js (Sess false false [] don) = Sess false false [] (don ++ map (map deed_act) v)) ->
  (forall l, wdid_so None q l -> wdid_so None p (filter some_deeds v ++ l)) -> wso_ok None q is -> wso_ok None p (js ++ is).
Proof.
  intros Hj Hd Hq don. destruct (Hq (don ++ map (map deed_act) v)) as (l & L1 & L2). exists (v ++ l). cbn [in_guard deeds_cur] in *.
  rewrite fold_left_app, Hj, L1. rewrite map_app, filter_app. split; [now rewrite <- app_assoc|auto].
Qed.
Lemma wso_open p q is : (forall l, wdid_so (Some []) q l -> wdid_so None p l) -> wso_ok (Some []) q is ->
  wso_ok None p (JAcq LWriter :: JAcq LData :: is).
Proof. intros Hd Hq don. destruct (Hq don) as (l & L1 & L2). exists l. auto. Qed.
Lemma wso_deed p q is g x a r : deed_act x = (a, r) -> (forall l, wdid_so (Some (g ++ [x])) q l -> wdid_so (Some g) p l) ->
  wso_ok (Some (g ++ [x])) q is -> wso_ok (Some g) p (JAct a r :: is).
Proof.
  intros Hx Hd Hq don. destruct (Hq don) as (l & L1 & L2). exists l. split; [|auto]. cbn [deeds_cur in_guard] in *. rewrite map_app in L1. cbn [map] in L1.
  rewrite Hx in L1. rewrite <- L1. reflexivity.
Qed.
Lemma wso_close p q is g r1 : (forall l, wdid_so None q l -> wdid_so (Some g) p ((g ++ [Did Shown r1]) :: l)) -> wso_ok None q is ->
  wso_ok (Some g) p (JAct ARefresh r1 :: JRel LWriter :: JRel LData :: is).
Proof.
  intros Hd Hq don. destruct (Hq (don ++ [map deed_act (g ++ [Did Shown r1])])) as (l & L1 & L2).
  exists ((g ++ [Did Shown r1]) :: l). split.
  - cbn [map]. cbn in L1 |- *. rewrite map_app in *. cbn in *. rewrite <- !app_assoc in *. cbn in *. exact L1.
  - cbn [filter]. replace (some_deeds (g ++ [Did Shown r1])) with true by (destruct g; reflexivity). auto.
Qed.

Lemma wso_read c k js js' is : reads c ->
  (forall s, fold_left jstep js s = s) -> (forall s, fold_left jstep js' s = s) ->
  (forall r is', jwalks (wcompile (k r)) is' Done -> wso_ok None (k r) is') ->
  jwalks (wscreen_read_block (fun r => rels js' (wcompile (k r)))) is Done ->
  (forall r is', jwalks (rels js' (wcompile (k r))) is' Done -> exists is2, is' = js' ++ is2 /\ jwalks (wcompile (k r)) is2 Done) ->
  wso_ok None (Call c k) (js ++ is).
Proof.
  intros Hr Hj Hj' IH H Hx.
  assert (Hi : forall r, (exists n, r = AOther n) \/ (exists e, r = AErr e) -> input_answer c r) by (intros r Hq; destruct Hr as [->| ->]; exact Hq).
  assert (G : forall r is', (exists n, r = AOther n) \/ (exists e, r = AErr e) -> jwalks (rels js' (wcompile (k r))) is' Done -> wso_ok None (Call c k) (js ++ is')).
  { intros r is' Ha X. destruct (Hx _ _ X) as (is2 & -> & G).
    rewrite app_assoc. apply (wso_quiet None _ (k r) _ (js ++ js')); [intros; rewrite fold_left_app, Hj, Hj'; reflexivity| |auto].
    intros l. now apply wso_input, Hi. }
  unfold wscreen_read_block, wread_block in H. jwalk. destruct c0 as [[e|sz]|mo tk kp|n]; jwalk; try (eapply G; [|eassumption]; eauto; fail).
  match goal with X : jwalks (rels js' (wcompile (k (AResized sz)))) ?i Done |- _ => destruct (Hx _ _ X) as (is2 & -> & G') end.
  match goal with |- context [JAct (AD (DUpdateSize sz)) ?r2] =>
    replace (js ++ _) with ((js ++ [JAcq LData; JAct (AD (DUpdateSize sz)) r2; JRel LData] ++ js') ++ is2)
      by (now rewrite <- !app_assoc);
    apply (wso_sessions _ (k (AResized sz)) _ _ [[Did (Fitted sz) r2]]); [| |auto] end.
  - intros don'. rewrite !fold_left_app, Hj, Hj'. reflexivity.
  - intros l. now apply wso_told.
Qed.

Lemma wso_walks p : forall g o is, wfollows true g (in_kind o) p -> uses_screen p -> jwalks (wcompile p) is Done -> wso_ok o p is.
Proof.
  induction p as [|c k IH]; intros g o is Hf Hs H.
  { destruct Hf as [_ Hf]. destruct o as [g0|]; [discriminate Hf|]. inversion H; subst.
    intros don. exists []. cbn. rewrite app_nil_r. split; [reflexivity|constructor]. }
  destruct Hf as [[Ha Hca] Hf]. destruct Hs as [Hs1 Hs2]. cbn [wcompile] in H.
  assert (IHq : forall r o' is', in_kind o' = write_guard_after c r (in_kind o) ->
    jwalks (wcompile (k r)) is' Done -> wso_ok o' (k r) is').
  { intros r o' is' Hk Hw. specialize (Hf r). rewrite <- Hk in Hf. exact (IH r _ _ _ Hf (Hs2 r) Hw). }
  clear IH Hf Hs2.
  assert (Hn : in_kind o = None -> o = None) by (destruct o; [discriminate|auto]).
  assert (Hy : in_kind o = Some OfScreen -> exists g, o = Some g) by (destruct o; [eauto|discriminate]).
  destruct c; cbn [calls_screen] in Hs1; try contradiction; cbn [allowed] in Ha; cbn [wmethod] in H.
  - (* lock_read *) jwalk. destruct Ha as [_ Ha]. rewrite (Hn Ha) in *.
    apply (wso_quiet None _ (k AOk) _ [JAcq LReader]); [reflexivity|intros l; apply wso_input; reflexivity|]. now apply IHq.
  - (* lock_write *) jwalk. rewrite (Hn Ha) in *.
    apply (wso_open _ (k AOk)); [intros l; apply wso_lock; auto|]. now apply IHq.
  - (* try_lock_read *) inversion H; subst; clear H.
    + apply (wso_quiet o _ (k AOk) _ [JAcq LReader]); [reflexivity|intros l; apply wso_input; cbn; auto|]. now apply IHq.
    + apply (wso_quiet o _ (k AWouldBlock) _ []); [reflexivity|intros l; apply wso_input; cbn; auto|]. now apply IHq.
  - (* try_lock_write *) rewrite (Hn Ha) in *. inversion H as [|X| l0 k0 k1 is0 p0 H0|l0 k0 k1 is0 p0 H0|X|X|X]; subst; clear H;
      inversion H0 as [|X| l1 k2 k3 is1 p1 H1|l1 k2 k3 is1 p1 H1|X|X|X]; subst; clear H0.
    + apply (wso_open _ (k AOk)); [intros l; apply wso_lock; auto|]. now apply IHq.
    + jwalk.
      apply (wso_sessions _ (k AWouldBlock) _ [JAcq LWriter; JRel LWriter] [[]]); [reflexivity|intros l; apply wso_locked|]. now apply IHq.
    + jwalk. apply (wso_sessions _ (k AWouldBlock) _ [JAcq LData; JRel LData] [[]]); [reflexivity|intros l; apply wso_locked|]. now apply IHq.
    + apply (wso_quiet None _ (k AWouldBlock) _ []); [reflexivity|intros l; apply wso_locked|]. now apply IHq.
  - (* wait *) destruct Ha as [_ Ha]. rewrite (Hn Ha) in *. unfold with_reader, wait_block in H. jwalk.
    match goal with c : choice |- _ => assert (G : exists r is', is0 = JRel LReader :: is' /\ jwalks (wcompile (k r)) is' Done /\ input_answer SWait r)
      by (destruct c as [?|? ? ?|n]; jwalk; [exists AOk|exists AOk|exists (AOther n)]; eexists; (split; [reflexivity|split; [eassumption|cbn; eauto]])) end.
    destruct G as (r & is' & -> & G & G'). apply (wso_quiet None _ (k r) _ [JAcq LReader; JRel LReader]); [reflexivity|intros l; now apply wso_input|]. now apply IHq.
  - (* read *) destruct Ha as [_ Ha]. rewrite (Hn Ha) in *. unfold with_reader in H. inversion H; subst; clear H.
    apply (wso_read SRead k [JAcq LReader] [JRel LReader]); auto; [now left|].
    intros r is' X. cbn in X. inversion X; subst. eexists. split; [reflexivity|assumption].
  - (* refresh *) rewrite (Hn Ha) in *. unfold wdrop_screen_writer in H. jwalk.

    match goal with X : jwalks (wcompile (k ?r)) _ _ |- wso_ok _ _ (_ :: _ :: JAct _ ?r0 :: JAct _ ?r1 :: _) =>
      apply (wso_sessions _ (k r) _ [JAcq LWriter; JAcq LData; JAct ARefresh r0; JAct ARefresh r1; JRel LWriter; JRel LData]
        [[Did Shown r0; Did Shown r1]]); [reflexivity|intros l; apply wso_show|now apply IHq] end.
  - (* set_cursor_mode *) rewrite (Hn Ha) in *. unfold wwith_writer in H. jwalk.

    match goal with X : jwalks (wcompile (k ?r)) _ _ |- _ =>
      apply (wso_sessions _ (k r) _ [JAcq LWriter; JAct (AW (WOp (OSetCursorMode m))) r; JRel LWriter]
        [[Did (Asked m) r]]); [reflexivity|intros l; apply wso_mode|now apply IHq] end.
  - (* drawing *) rewrite (Hn Ha) in *. destruct Hs1 as (m & ->). jwalk.
    match goal with X : jwalks (wcompile (k ?r)) _ _ |- _ =>
      apply (wso_sessions _ (k r) _ [JAcq LData; JAct (AD (DBuf (sforward m))) r; JRel LData] [[Did (Drawn m) r]]); [reflexivity|intros l; apply wso_draw|now apply IHq] end.
  - (* dropping the read guard *) jwalk. apply (wso_quiet o _ (k AOk) _ [JRel LReader]); [reflexivity|intros l; apply wso_input; reflexivity|]. now apply IHq.
  - (* waiting through it *) unfold wait_block in H. jwalk.
    match goal with c : choice |- _ => assert (G : exists r, jwalks (wcompile (k r)) is Done /\ input_answer SRWait r)
      by (destruct c as [?|? ? ?|n]; [exists AOk|exists AOk|exists (AOther n)]; (split; [assumption|cbn; eauto])) end.
    destruct G as (r & G & G'). apply (wso_quiet o _ (k r) _ []); [reflexivity|intros l; now apply wso_input|]. now apply IHq.
  - (* reading through it *) assert (Hn0 : o = None) by (apply Hn; destruct (Hca eq_refl) as [X|[X _]]; [exact X|discriminate X]). rewrite Hn0 in *.
    apply (wso_read SRRead k [] []); auto; [now right|]. intros r is' X. cbn in X. exists is'. auto.
  - (* dropping the write guard *) destruct (Hy Ha) as (g0 & ->). unfold wdrop_screen_writer in H. jwalk.

    apply (wso_close _ (k AOk)); [intros l; apply wso_drop|]. now apply IHq.
  - (* refreshing through it *) destruct (Hy Ha) as (g0 & ->). jwalk.
    apply (wso_deed _ (k r) _ _ (Did Shown r)); [reflexivity|intros l; apply wso_through; constructor|]. now apply IHq.
  - destruct (Hy Ha) as (g0 & ->). jwalk.
    apply (wso_deed _ (k r) _ _ (Did (Asked m) r)); [reflexivity|intros l; apply wso_through; constructor|]. now apply IHq.
  - destruct (Hy Ha) as (g0 & ->). destruct Hs1 as (m & ->). jwalk.
    apply (wso_deed _ (k r) _ _ (Did (Drawn m) r)); [reflexivity|intros l; apply wso_through; constructor|]. now apply IHq.
Qed.


Definition calm (x : deed) : Prop := exists y r, x = Did y r.
Lemma wdid_calm o p l : wdid_so o p l -> match o with Some g => Forall calm g | None => True end -> Forall (Forall calm) l.
Proof.
  induction 1; intros Ho; auto; try (apply Forall_cons; [|now apply IHwdid_so]); try (repeat (apply Forall_cons; [eexists; eexists; reflexivity|]); constructor).
  - apply IHwdid_so. apply Forall_app. split; [exact Ho|]. repeat constructor. eexists; eexists; reflexivity.
  - apply Forall_app. split; [exact Ho|]. repeat constructor. eexists; eexists; reflexivity.
Qed.

Section Run.
  Variables (draw : list N -> N -> view -> view) (E : env).
  Let M s0 := screen_access draw E (g_state s0) (g_old s0).

  Lemma wdeed_performed s0 x s rest w' d' : g_state s = g_state s0 -> g_old s = g_old s0 -> calm x ->
    wreplays (M s0) (deed_act x :: rest) (wshare s) (Some w', Some d') ->
    exists s', wreplays (M s0) rest (wshare s') (Some w', Some d') /\ g_state s' = g_state s0 /\ g_old s' = g_old s0 /\
      forall l s2, wperformed draw E l s' s2 -> wperformed draw E (x :: l) s s2.
  Proof.
    intros G1 G2 (y & r0 & ->) H. cbn [deed_act] in H. assert (Hg := walive draw E _ _ _ _ _ _ _ H).
    cbn [wreplays] in H. destruct H as [H1 H2]. destruct y as [m| |m|sz]; cbn [mark_act] in *.
    - unfold M, wshare, wmeans, screen_access in H1, H2. cbn [on_data dbuf dclr dreal] in H1, H2.
      destruct (run_buf_op E (g_sb s) (sforward m)) as [b|] eqn:Eb; cbn [fst snd] in H1, H2; [subst r0|congruence].
      exists (with_gsb b s). split; [exact H2|]. split; [exact G1|]. split; [exact G2|]. intros l s2. now apply wperf_drawn.
    - unfold M, wshare, wmeans, screen_access in H1, H2. cbn [on_both dbuf dclr dreal] in H1, H2. rewrite <- G1, <- G2 in H1, H2.
      replace (WScr (g_sb s) (g_clr s) (g_real s) (g_state s) (g_old s) (g_t s)) with s in * by (now destruct s).
      assert (St := stays_refresh draw E s).
      destruct (win_refresh draw E s) as [s1 u|s1 e| |] eqn:Er; cbn in H1, H2; try congruence; subst r0; destruct St as (S1 & S2 & _); rewrite G1, G2 in H2;
        exists s1; (split; [exact H2|]); (split; [congruence|]); (split; [congruence|]); intros l s2; apply wperf_shown; rewrite Er; constructor.
    - unfold M, wshare, wmeans, screen_access in H1, H2. cbn [on_writer run_win] in H1, H2.
      assert (Q : forall l s1 s2, wanswers (run_wsop draw E (SCursorMode m) s) s1 r0 -> wperformed draw E l s1 s2 -> wperformed draw E (Did (Asked m) r0 :: l) s s2)
        by (intros; eapply wperf_asked; eassumption).
      cbn [run_wsop] in Q. unfold on_term in Q.
      destruct (on_wins (win_set_cursor_mode m) (g_t s)) as [t []|t e| |] eqn:Et; cbn [told fst snd] in H1, H2; try congruence; subst r0;
        exists (with_gt t s); (split; [exact H2|]); (split; [exact G1|]); (split; [exact G2|]); intros l s2; apply Q; constructor.
    - unfold M, wshare, wmeans, screen_access in H1, H2. cbn [on_data dbuf dclr dreal] in H1, H2.
      assert (Q : forall l s1 u s2, win_update_size E sz s = Ret s1 u -> wperformed draw E l s1 s2 -> wperformed draw E (Did (Fitted sz) AOk :: l) s s2)
        by (intros; eapply wperf_fitted; eassumption).
      unfold win_update_size in Q.
      destruct (sb_resize E (g_sb s) sz) as [b|] eqn:Eb; cbn [fst snd] in H1, H2; [subst r0|congruence].
      exists (WScr b true (if is_out_of_bounds (g_real s) sz then Cursor (umax E) (umax E) else g_real s) (g_state s) (g_old s) (g_t s)).
      split; [exact H2|]. split; [exact G1|]. split; [exact G2|]. intros l s2. now apply Q with (u := tt).
  Qed.
  Lemma wdeeds_performed s0 l : forall s w' d', g_state s = g_state s0 -> g_old s = g_old s0 -> Forall calm l ->
    wreplays (M s0) (map deed_act l) (wshare s) (Some w', Some d') ->
    exists s', wshare s' = (Some w', Some d') /\ wperformed draw E l s s'.
  Proof.
    induction l as [|x l IH]; intros s w' d' G1 G2 Hl H.
    - cbn in H. exists s. split; [exact H|constructor].
    - inversion Hl as [|? ? Hx Hl']; subst. cbn [map] in H. destruct (wdeed_performed s0 _ _ _ _ _ G1 G2 Hx H) as (s1 & H1 & G3 & G4 & H2').
      destruct (IH _ _ _ G3 G4 Hl' H1) as (s2 & Q1 & Q2). eauto.
  Qed.

  Lemma wone_after_another (progs : list client) s tr c w' d' :
    Forall (fun p => wfollows true None None p /\ uses_screen p) progs ->
    wrun (screen_access draw E (g_state s) (g_old s)) (wstart progs (wshare s)) tr c -> wowner c LWriter = None -> wowner c LData = None ->
    wshared c = (Some w', Some d') ->
    exists order : list (nat * list deed),
      (forall i, exists rest, wdid_so None (nth i progs Finish) (done_by i order ++ rest) /\ (wthreads c i = Done -> rest = [])) /\
      exists s', wperformed draw E (concat (map snd order)) s s' /\ wshare s' = (Some w', Some d').
  Proof.
    intros Hn R U1 U2 Hs.
    assert (L1 : Forall (wfollows true None None) progs) by (refine (Forall_impl _ _ Hn); intros p [H _]; exact H).
    assert (L2 : Forall (wfollows false None None) progs) by (refine (Forall_impl _ _ L1); intros p; apply wfollows_less).
    destruct (wsessions_atomic _ _ _ tr c L2 R U1 U2) as (order & O1 & O2).
    rewrite Hs in O2.
    assert (Hwalk : forall i, exists l, sessions i tr = map (map deed_act) l /\
      exists rest, wdid_so None (nth i progs Finish) (filter some_deeds l ++ rest) /\ (wthreads c i = Done -> rest = [])).
    { intros i. destruct (wjwalk_run _ i _ _ _ R) as (is & W1 & W2 & W3). cbn [wstart wthreads] in W1.
      assert (Hi : wfollows true None None (nth i progs Finish) /\ uses_screen (nth i progs Finish)).
      { destruct (Nat.lt_ge_cases i (length progs)) as [Hi|Hi].
        - exact (proj1 (Forall_forall _ _) Hn _ (nth_In _ Finish Hi)).
        - rewrite nth_overflow by exact Hi. repeat split. }
      destruct (walk_on (wthreads c i)) as (is2 & V1 & _).
      destruct (wso_walks _ None None (is ++ is2) (proj1 Hi) (proj2 Hi) (jwalks_app _ _ _ W1 _ _ V1) []) as (l & T1 & T2).
      cbn [in_guard deeds_cur app] in T1. rewrite fold_left_app, <- W2 in T1. destruct (done_more is2 (sess_of i tr)) as (ls & D).
      rewrite T1 in D. cbn [s_done] in D. fold (sessions i tr) in D. symmetry in D. apply eq_sym in D. apply map_eq_app in D. destruct D as (l1 & l2 & -> & D1 & D2).
      exists l1. split; [now rewrite D1|]. exists (filter some_deeds l2). rewrite <- filter_app. split; [exact T2|].
      intros Hd. rewrite Hd in V1. inversion V1; subst. cbn [fold_left] in T1. assert (X := f_equal s_done T1). cbn [s_done] in X.
      fold (sessions i tr) in X. rewrite <- D1, map_app in X. rewrite <- (app_nil_r (map (map deed_act) l1)) in X at 1. apply app_inv_head in X.
      destruct l2; [reflexivity|discriminate X]. }
    assert (Hch : forall n, exists f : nat -> list (list deed), forall i, i < n -> sessions i tr = map (map deed_act) (f i) /\
      exists rest, wdid_so None (nth i progs Finish) (filter some_deeds (f i) ++ rest) /\ (wthreads c i = Done -> rest = [])).
    { induction n as [|n [f Hfn]]; [exists (fun _ => []); intros i Hi; lia|]. destruct (Hwalk n) as (l & Hl).
      exists (fun i => if i =? n then l else f i). intros i Hi. destruct (Nat.eqb_spec i n) as [->|Hni]; [exact Hl|]. apply Hfn. lia. }
    destruct (Hch (length progs)) as (f & Hfl).
    set (want := fun i => if i <? length progs then f i else []).
    assert (Hend : forall i, length progs <= i -> sessions i tr = []).
    { intros i Hi. destruct (wjwalk_run _ i _ _ _ R) as (is & W1 & W2 & _). cbn [wstart wthreads] in W1.
      rewrite nth_overflow in W1 by exact Hi. inversion W1; subst. unfold sessions. now rewrite W2. }
    destruct (exact_plan order want) as (plan & P1 & P2).
    { intros i. unfold done_by. rewrite O1. unfold want. destruct (Nat.ltb_spec i (length progs)) as [Hi|Hi].
      - apply Hfl, Hi.
      - now rewrite Hend. }
    assert (Hby : forall i, exists rest, wdid_so None (nth i progs Finish) (done_by i (some_plan plan) ++ rest) /\ (wthreads c i = Done -> rest = [])).
    { intros i. rewrite some_plan_by, P1. unfold want. destruct (Nat.ltb_spec i (length progs)) as [Hi|Hi]; [apply Hfl, Hi|].
      exists []. rewrite nth_overflow by exact Hi. split; [constructor|reflexivity]. }
    assert (Hq : Forall calm (concat (map snd plan))).
    { rewrite <- some_plan_snd. apply Forall_concat, Forall_forall. intros x Hx. apply in_map_iff in Hx. destruct Hx as ([j y] & Hy & Hx). cbn in Hy. subst y.
      destruct (Hby j) as (rest & B & _). assert (B' := wdid_calm _ _ _ B I). apply Forall_app in B'. destruct B' as [B' _].
      refine (proj1 (Forall_forall _ _) B' x _). unfold done_by. apply in_map_iff. exists (j, x). split; [reflexivity|]. apply filter_In.
      split; [exact Hx|]. apply Nat.eqb_refl. }
    rewrite P2, <- concat_map in O2. destruct (wdeeds_performed s _ s _ _ eq_refl eq_refl Hq O2) as (s' & Q1 & Q2).
    exists (some_plan plan). split; [exact Hby|]. rewrite some_plan_snd. eauto.
  Qed.
End Run.

(** ** For the example *)
From Verif Require Import P_Sched P_WinProgram3.
Definition wstuck {Wd Dd} (M : access (option Wd) (option Dd)) (l : list client) s (sch : list (nat * choice)) : bool :=
  match wlrun M sch [] (wstart l s) with
  | Some (tr, c) =>
      match wowner c LWriter, wowner c LData, wshared c with
      | None, None, (Some _, Some _) => existsb failed_event tr && existsb is_new_size tr && negb (is_done (wthreads c 2))
      | _, _, _ => false
      end
  | None => false
  end.
Lemma wstuck_ok {Wd Dd} (M : access (option Wd) (option Dd)) l s sch : wstuck M l s sch = true ->
  exists tr c w' d', wrun M (wstart l s) tr c /\ wowner c LWriter = None /\ wowner c LData = None /\
    wshared c = (Some w', Some d') /\ (exists i a e, In (EvAct i a (AErr e)) tr) /\
    (exists i sz r, In (EvAct i (AD (DUpdateSize sz)) r) tr) /\ wthreads c 2 <> Done.
Proof.
  unfold wstuck. destruct (wlrun M sch [] (wstart l s)) as [[tr c]|] eqn:Er; [|discriminate].
  destruct (wowner c LWriter) eqn:O1; [discriminate|]. destruct (wowner c LData) eqn:O2; [discriminate|].
  destruct (wshared c) as [[w'|] [d'|]] eqn:Ec; try discriminate. intros H. apply andb_prop in H. destruct H as [H H3]. apply andb_prop in H. destruct H as [H1 H2].
  exists tr, c, w', d'. split; [exact (wlrun_ok M sch [] _ _ tr c (wrun_nil _ _) Er)|]. repeat (split; [assumption|]). split; [|split].
  - apply existsb_exists in H1. destruct H1 as (e & X & Y). destruct e as [| |i a r|]; try discriminate. destruct r; try discriminate. eauto.
  - apply existsb_exists in H2. destruct H2 as (e & X & Y). destruct e as [| |i a r|]; try discriminate. destruct a as [|[|]|]; try discriminate. eauto.
  - intros Hd. rewrite Hd in H3. discriminate H3.
Qed.
