(** Proofs about threads that draw on one screen or write to one terminal on Windows
    (C111, C112). *)
From Verif Require Import Base M_Utf8 S_Utf8 M_Geom S_Geom M_Attr M_Buf S_Buf M_Writer S_Tty S_Writer M_Screen M_ScreenApi M_Api
  M_Locks S_Locks P_Locks P_Locks2 S_Together P_Together P_Together2 M_WinWriter S_WinWriter M_WinReader M_WinScreen S_WinScreen P_WinScreen
  S_WinCanvas P_WinCanvas M_WinApi S_WinApi P_WinApi M_WinLocks S_WinLocks P_WinLocks P_WinLocks2 P_WinLocks3 M_WinShare S_WinTogether.
From Verif Require S_Canvas P_Canvas.
Import S_Canvas.

(** ** Threads whose programs do not depend on answers *)
Section Straight.
  Context {Wd Dd : Type}.
  Variable M : access Wd Dd.

  Lemma wstraight_step all i c e c' s : (exists don rest, all = don ++ rest /\ wthreads c i = straight rest /\
      plain_sess s = fold_left istep don (ISess false false [] [])) ->
    M_WinLocks.wstep M c e c' ->
    exists don rest, all = don ++ rest /\ wthreads c' i = straight rest /\
      plain_sess (sess_step i s e) = fold_left istep don (ISess false false [] []).
  Proof.
    intros (don & rest & Ha & Hp & Hs) St.
    destruct St as [j l k t o d Ht Ho|j l k k' t o d Ht Ho|j l k k' j' t o d Ht Ho
                   |j l k t o d Ht Ho|j a k t o d d' r Ht Ho|j k x t o d Ht]; cbn [wthreads] in *;
      (destruct (Nat.eq_dec i j) as [<-|Hj];
       [rewrite set_thread_same; rewrite Hp in Ht
       |rewrite set_thread_other by exact Hj; rewrite sess_other by (cbn; congruence); exists don, rest; auto]);
      destruct rest as [|[x1|x1|a1] rest]; try discriminate Ht; injection Ht as E1 E2; subst.
    - exists (don ++ [IAcq l]), rest. rewrite <- app_assoc. split; [reflexivity|]. split; [reflexivity|].
      rewrite fold_left_app, <- Hs. destruct l; cbn; rewrite ?Nat.eqb_refl; reflexivity.
    - exists (don ++ [IRel l]), rest. rewrite <- app_assoc. split; [reflexivity|]. split; [reflexivity|].
      rewrite fold_left_app, <- Hs. destruct l; cbn; rewrite ?Nat.eqb_refl; [reflexivity| |].
      + destruct s as [sw sd sc sn]. cbn. destruct sd; unfold plain_sess; cbn; rewrite ?map_app; reflexivity.
      + destruct s as [sw sd sc sn]. cbn. destruct sw; unfold plain_sess; cbn; rewrite ?map_app; reflexivity.
    - exists (don ++ [IAct a]), rest. rewrite <- app_assoc. split; [reflexivity|]. split; [reflexivity|].
      rewrite fold_left_app, <- Hs. cbn. rewrite Nat.eqb_refl. unfold plain_sess. cbn. now rewrite map_app.
  Qed.

  Lemma wstraight_run all i c tr c' : wrun M c tr c' -> wthreads c i = straight all ->
    exists don rest, all = don ++ rest /\ wthreads c' i = straight rest /\
      plain_sess (sess_of i tr) = fold_left istep don (ISess false false [] []).
  Proof.
    intros R H. induction R as [|tr c1 e c2 R IH St].
    - exists [], all. auto.
    - rewrite sess_snoc. eapply wstraight_step; [exact IH|exact St].
  Qed.

  Lemma wstraight_sessions all i c tr c' : wrun M c tr c' -> wthreads c i = straight all -> wthreads c' i = Done ->
    map (map fst) (sessions i tr) = i_done (fold_left istep all (ISess false false [] [])).
  Proof.
    intros R H F. destruct (wstraight_run _ _ _ _ _ R H) as (don & rest & -> & Hp & Hs). rewrite F in Hp.
    destruct rest as [|[| |] rest]; try discriminate Hp. rewrite app_nil_r, <- Hs. reflexivity.
  Qed.

  Definition mute (l : list (act * M_Locks.ans)) : Prop := forall a e, ~ In (a, AErr e) l.
  Lemma mute_cons a r l : mute ((a, r) :: l) -> (forall e, r <> AErr e) /\ mute l.
  Proof. intros H. split; [intros e ->; apply (H a e); now left|]. intros b e Hi. apply (H b e). now right. Qed.
  Lemma mute_app l1 l2 : mute (l1 ++ l2) -> mute l1 /\ mute l2.
  Proof. intros H. split; intros b e Hi; apply (H b e), in_or_app; auto. Qed.
  Lemma mute_order order tr : S_Together.no_failure tr -> (forall i, done_by i order = sessions i tr) -> mute (concat (map snd order)).
  Proof. exact (fine_order order tr). Qed.

  Lemma wfollows_less p : forall r w, wfollows true r w p -> wfollows false r w p.
  Proof.
    induction p as [|x k IH]; intros r w H; [exact H|]. destruct H as [[H1 H2] H3]. split; [|auto].
    split; [exact H1|]. intros X. destruct (H2 X) as [G|[G _]]; [auto|discriminate G].
  Qed.

  (** All threads to their ends: the sessions are the programs' and come in one order. *)
  Lemma wall_sessions {A} (client : list A -> client) (instrs : list A -> list instr) (acts : list A -> list (list act)) (progs : list (list A)) s tr c :
    (forall l, wcompile (client l) = straight (instrs l)) ->
    (forall l, fold_left istep (instrs l) (ISess false false [] []) = ISess false false [] (acts l)) ->
    (forall l, S_Locks.follows true None None (client l)) -> client [] = Finish ->
    wrun M (wstart (map client progs) s) tr c -> wfinished c ->
    exists order, (forall i, done_by i order = sessions i tr) /\ wreplays M (concat (map snd order)) s (wshared c) /\
      forall i, map (map fst) (done_by i order) = acts (nth i progs []).
  Proof.
    intros Hc Hi Hf H0 R F.
    assert (L1 : Forall (wfollows true None None) (map client progs)).
    { apply Forall_forall. intros q Hq. apply in_map_iff in Hq. destruct Hq as (l & <- & Hl). apply careful_follows. auto. }
    assert (L2 : Forall (wfollows false None None) (map client progs)).
    { eapply Forall_impl; [|exact L1]. intros p. apply wfollows_less. }
    assert (U := wfinished_unlocked M _ _ _ _ L1 R F).
    destruct (wsessions_atomic M _ _ tr c L2 R (U LWriter) (U LData)) as (order & O1 & O2).
    exists order. split; [exact O1|]. split; [exact O2|]. intros i. unfold done_by. rewrite O1.
    rewrite (wstraight_sessions (instrs (nth i progs [])) i _ _ _ R); [|cbn [wstart wthreads]|apply F].
    - now rewrite Hi.
    - rewrite <- H0, map_nth. apply Hc.
  Qed.
End Straight.

(** ** Drawing *)
Definition wdrop_instrs : list instr := [IAct ARefresh; IRel LWriter; IRel LData].
Definition wdoing_instrs (d : doing) : list instr :=
  match d with
  | Alone m => [IAcq LData; IAct (AD (DBuf (sforward m))); IRel LData]
  | Redraw => [IAcq LWriter; IAcq LData; IAct ARefresh] ++ wdrop_instrs
  | Together l => [IAcq LWriter; IAcq LData] ++ map (fun s => IAct (stroke_act s)) l ++ wdrop_instrs
  end.
(** A [Redraw] refreshes twice: the temporary guard is dropped. *)
Definition wstrokes (d : doing) : list stroke := match d with Redraw => [Show; Show] | d => strokes d end.

Lemma wguard_straight l k r : wcompile k = straight r ->
  wcompile (guard_client l k) = straight (map (fun s => IAct (stroke_act s)) l ++ wdrop_instrs ++ r).
Proof.
  intros H. induction l as [|s l IH]; cbn; [now rewrite H|]. destruct s; cbn; now rewrite IH.
Qed.
Lemma wdoings_straight l : wcompile (doings_client l) = straight (concat (map wdoing_instrs l)).
Proof.
  induction l as [|d l IH]; [reflexivity|]. cbn [map concat]. change (doings_client (d :: l)) with (doing_client d (doings_client l)).
  destruct d as [m| |s]; cbn [doing_client wdoing_instrs].
  - cbn. now rewrite IH.
  - cbn. now rewrite IH.
  - cbn [wcompile wmethod]. rewrite (wguard_straight _ _ _ IH). rewrite <- !app_assoc. reflexivity.
Qed.
Lemma wdoing_parse d don : fold_left istep (wdoing_instrs d) (ISess false false [] don) = ISess false false [] (don ++ [map stroke_act (wstrokes d)]).
Proof.
  destruct d as [m| |l]; cbn [wdoing_instrs]; [reflexivity|reflexivity|].
  rewrite fold_left_app. change (fold_left istep [IAcq LWriter; IAcq LData] (ISess false false [] don)) with (ISess true true [] don).
  rewrite fold_left_app, acts_parse. cbn. rewrite map_app. reflexivity.
Qed.
Lemma wdoings_parse l : forall don, fold_left istep (concat (map wdoing_instrs l)) (ISess false false [] don) =
  ISess false false [] (don ++ map (fun d => map stroke_act (wstrokes d)) l).
Proof.
  induction l as [|d l IH]; intros don; cbn [map concat]; [cbn; now rewrite app_nil_r|].
  rewrite fold_left_app, wdoing_parse, IH, <- app_assoc. reflexivity.
Qed.

Section WinPicture.
  Variables (draw : list N -> N -> view -> view) (shown : list N -> option N) (E : env).
  Hypothesis HP : places draw shown.
  Hypothesis HE : env_ok E.
  Hypothesis HU : (32767 <= Z.of_nat (umax E))%Z.

  Definition wshown_as (default : N) (t : wterm) (k : canvas) : Prop :=
    wdisplays shown default (c_view (w_con (t_w t))) k /\
    v_cur (c_view (w_con (t_w t))) = Coord (Z.of_nat (column (pen_goal k))) (Z.of_nat (line (pen_goal k))).

  (** The state of a screen in use: [last] is what the console shows, if it is known. *)
  Definition wdrawn (s0 s : wscr) (k : canvas) (last : option canvas) : Prop :=
    (g_state s = g_state s0 /\ g_old s = g_old s0 /\ t_default (g_t s) = t_default (g_t s0)) /\
    (exists r, wpainted draw shown E s k r /\ (r = true -> covers (sees s))) /\
    match last with
    | Some k' => wshown_as (t_default (g_t s0)) (g_t s) k'
    | None => g_t s = g_t s0
    end.

  Let M s0 := screen_access draw E (g_state s0) (g_old s0).

  Lemma wdrawn_draw s0 s k last m b : wdrawn s0 s k last -> Forall (single E shown) (method_text m) ->
    screen_method E m (g_sb s) = Val b -> wdrawn s0 (with_gsb b s) (S_Canvas.draw E m k) last.
  Proof.
    intros (X1 & (r & X2 & X3) & X4) Hn Hm. split; [exact X1|]. split; [|destruct last; exact X4].
    exists r. split; [eapply WP_method; eassumption|exact X3].
  Qed.
  Lemma wdrawn_show s0 s k last s' : wdrawn s0 s k last -> win_refresh draw E s = Ret s' tt -> wdrawn s0 s' k (Some k).
  Proof.
    intros ((X1 & X1' & X1'') & (r & X2 & X3) & X4) Hr.
    assert (St := stays_refresh draw E s). rewrite Hr in St. destruct St as (S1 & S2 & _ & _ & _ & _ & S3 & _).
    destruct (winpainting_shows draw shown E HP HE s k r HU X2) as (_ & _ & P). specialize (P s' tt X3 Hr).
    split; [repeat split; congruence|]. split.
    - exists false. split; [eapply WP_refresh; eassumption|discriminate].
    - rewrite <- X1''. exact P.
  Qed.

  Lemma wshow_means s0 s p : g_state s = g_state s0 -> g_old s = g_old s0 ->
    snd (wmeans (M s0) ARefresh (wshare s)) = p -> p <> AGone -> (forall e, p <> AErr e) ->
    exists s', fst (wmeans (M s0) ARefresh (wshare s)) = wshare s' /\ win_refresh draw E s = Ret s' tt.
  Proof.
    intros Hs Ho. unfold M, wshare, wmeans, screen_access. cbn [on_both dbuf dclr dreal]. rewrite <- Hs, <- Ho.
    destruct s as [b c r st old t]. cbn [g_sb g_clr g_real g_state g_old g_t].
    destruct (win_refresh draw E (WScr b c r st old t)) as [s' []|s' e| |]; cbn; intros <- H1 H2; try congruence.
    - exists s'. auto.
  Qed.

  Lemma wmeans_gone s0 a s : snd (wmeans (M s0) a s) = AGone ->
    fst (fst (wmeans (M s0) a s)) = None \/ snd (fst (wmeans (M s0) a s)) = None.
  Proof.
    destruct s as [w d]. unfold M, screen_access. destruct a as [a|a|]; cbn [wmeans on_writer on_data on_both].
    - destruct w as [w|]; [|now left]. destruct a; cbn; try discriminate.
      destruct (on_wins _ w); cbn; intros H; try discriminate H; now left.
    - destruct d as [d|]; [|now right]. destruct a.
      + destruct (run_buf_op E (dbuf d) o); cbn; intros H; [discriminate H|now right].
      + destruct (sb_resize E (dbuf d) sz); cbn; intros H; [discriminate H|now right].
    - destruct w as [w|]; [|now left]. destruct d as [d|]; [|now left].
      destruct (win_refresh draw E _); cbn; intros H; try discriminate H; now left.
  Qed.
  Lemma wreplays_none s0 l : forall s s', wreplays (M s0) l s s' -> fst s = None \/ snd s = None -> fst s' = None \/ snd s' = None.
  Proof.
    induction l as [|[a r] l IH]; intros s s' H N; cbn [wreplays] in H; [now subst|]. destruct H as [_ H]. apply (IH _ _ H).
    destruct s as [w d]. cbn [fst snd] in N. unfold M, screen_access. destruct a as [a|a|]; cbn [wmeans on_writer on_data on_both].
    - destruct N as [->| ->]; [now left|]. destruct (match w with Some t => _ | None => _ end) as [w' q]. now right.
    - destruct N as [->| ->]; [|now right]. destruct (match d with Some t => _ | None => _ end) as [d' q]. now left.
    - destruct N as [->| ->]; cbn; [now left|]. destruct w; now left.
  Qed.
  Lemma walive s0 a r l s w' d' : wreplays (M s0) ((a, r) :: l) s (Some w', Some d') -> r <> AGone.
  Proof.
    cbn [wreplays]. intros [H1 H2] ->. apply wmeans_gone in H1. apply (wreplays_none _ _ _ _ H2) in H1. cbn in H1. destruct H1; discriminate.
  Qed.

  Lemma wstrokes_replay s0 q : forall s k last rs l w' d', wdrawn s0 s k last -> Forall (single_stroke E shown) q ->
    map fst rs = map stroke_act q -> mute rs -> wreplays (M s0) (rs ++ l) (wshare s) (Some w', Some d') ->
    exists s', wreplays (M s0) l (wshare s') (Some w', Some d') /\ wdrawn s0 s' (picture E q k) (S_Together.displayed E q k last).
  Proof.
    induction q as [|[m|] q IH]; intros s k last rs l w' d' Hd Hn Hm Hf H.
    - destruct rs; [|discriminate Hm]. exists s. auto.
    - destruct rs as [|[a r] rs]; [discriminate Hm|]. cbn [map fst stroke_act] in Hm. injection Hm as -> Hm.
      inversion Hn as [|? ? N1 N2]; subst. destruct (mute_cons _ _ _ Hf) as [_ Hf']. cbn [app] in H.
      assert (Hg := walive _ _ _ _ _ _ _ H). cbn [wreplays] in H. destruct H as [H1 H2].
      unfold M, wshare, wmeans, screen_access in H1, H2. cbn [on_data dbuf dclr dreal] in H1, H2.
      destruct (run_buf_op E (g_sb s) (sforward m)) as [b|] eqn:Eb; cbn [fst snd] in H1, H2; [|congruence].
      exact (IH (with_gsb b s) _ _ rs l w' d' (wdrawn_draw _ _ _ _ _ _ Hd N1 Eb) N2 Hm Hf' H2).
    - destruct rs as [|[a r] rs]; [discriminate Hm|]. cbn [map fst stroke_act] in Hm. injection Hm as -> Hm.
      inversion Hn as [|? ? N1 N2]; subst. destruct (mute_cons _ _ _ Hf) as [Hr Hf']. cbn [app] in H.
      assert (Hg := walive _ _ _ _ _ _ _ H). cbn [wreplays] in H. destruct H as [H1 H2].
      destruct (wshow_means s0 s r (proj1 (proj1 Hd)) (proj1 (proj2 (proj1 Hd))) H1 Hg Hr) as (s' & R1 & R2). rewrite R1 in H2.
      exact (IH _ _ _ _ _ _ _ (wdrawn_show _ _ _ _ _ Hd R2) N2 Hm Hf' H2).
  Qed.

  Lemma wstrokes_same d : (forall k, picture E (wstrokes d) k = picture E (strokes d) k) /\
    (forall k last, S_Together.displayed E (wstrokes d) k last = S_Together.displayed E (strokes d) k last) /\
    (Forall (single_stroke E shown) (strokes d) -> Forall (single_stroke E shown) (wstrokes d)).
  Proof. destruct d; cbn [wstrokes]; auto. cbn. repeat split; auto. repeat constructor. Qed.

  Lemma worder_replay s0 order : forall (want : nat -> list doing) s k last w' d', wdrawn s0 s k last ->
    (forall i, Forall (single_doing E shown) (want i)) ->
    (forall i, map (map fst) (done_by i order) = map (fun d => map stroke_act (wstrokes d)) (want i)) -> mute (concat (map snd order)) ->
    wreplays (M s0) (concat (map snd order)) (wshare s) (Some w', Some d') ->
    exists (plan : list (nat * doing)) s', (forall i, done_by i plan = want i) /\ wshare s' = (Some w', Some d') /\
      wdrawn s0 s' (picture E (concat (map strokes (map snd plan))) k) (S_Together.displayed E (concat (map strokes (map snd plan))) k last).
  Proof.
    induction order as [|[j rs] order IH]; intros want s k last w' d' Hd Hn Hw Hf H; cbn [map concat snd] in *.
    - cbn in H. exists [], s. split; [|split; [exact H|exact Hd]].
      intros i. specialize (Hw i). cbn in Hw. destruct (want i); [reflexivity|discriminate].
    - assert (Hj := Hw j). unfold done_by in Hj. cbn [filter fst] in Hj. rewrite Nat.eqb_refl in Hj. cbn [map snd] in Hj.
      destruct (want j) as [|d rest] eqn:Ew; [discriminate Hj|]. cbn [map] in Hj. injection Hj as Hd1 Hrest.
      assert (Hnj := Hn j). rewrite Ew in Hnj. inversion Hnj as [|? ? N1 N2]; subst.
      apply mute_app in Hf. destruct (wstrokes_same d) as (W1 & W2 & W3).
      destruct (wstrokes_replay s0 (wstrokes d) _ _ _ _ _ _ _ Hd (W3 N1) Hd1 (proj1 Hf) H) as (s' & H' & D').
      rewrite W1, W2 in D'.
      destruct (IH (fun i => if j =? i then rest else want i) _ _ _ w' d' D') as (plan & s2 & P1 & P2 & P3).
      + intros i. destruct (Nat.eqb_spec j i) as [Ei|Ei]; [exact N2|apply Hn].
      + intros i. specialize (Hw i). unfold done_by in Hw |- *. cbn [filter fst] in Hw.
        destruct (Nat.eqb_spec j i) as [Ei|Ei]; [subst i; exact Hrest|exact Hw].
      + exact (proj2 Hf).
      + exact H'.
      + exists ((j, d) :: plan), s2. split; [|split; [exact P2|]].
        * intros i. specialize (P1 i). unfold done_by in *. cbn [filter fst].
          destruct (Nat.eqb_spec j i) as [Ei|Ei]; [|exact P1]. subst i. rewrite Ew. cbn [map snd]. f_equal. exact P1.
        * cbn [map snd concat]. rewrite picture_app, displayed_app. exact P3.
  Qed.

  Lemma wthreads_draw (progs : list (list doing)) s k r tr c t' d' : wpainted draw shown E s k r ->
    (r = true -> covers (sees s)) -> Forall (Forall (single_doing E shown)) progs ->
    wrun (screen_access draw E (g_state s) (g_old s)) (wstart (map doings_client progs) (wshare s)) tr c ->
    wfinished c -> S_Together.no_failure tr -> wshared c = (Some t', Some d') ->
    exists order : list (nat * doing), (forall i, done_by i order = nth i progs []) /\
      let l := concat (map strokes (map snd order)) in
      holds (dbuf d') (picture E l k) /\
      match S_Together.displayed E l k None with
      | Some k' => wdisplays shown (t_default (g_t s)) (c_view (w_con (t_w t'))) k' /\
          v_cur (c_view (w_con (t_w t'))) = Coord (Z.of_nat (column (pen_goal k'))) (Z.of_nat (line (pen_goal k')))
      | None => t' = g_t s
      end.
  Proof.
    intros Hp Hcv Hn R F Hf Hs.
    destruct (wall_sessions _ doings_client (fun l => concat (map wdoing_instrs l)) (map (fun d => map stroke_act (wstrokes d))) progs _ tr c
      wdoings_straight (fun l => wdoings_parse l []) (doings_follow true) eq_refl R F)
      as (order & O1 & O2 & O3).
    rewrite Hs in O2.
    destruct (worder_replay s order (fun i => nth i progs []) s k None t' d') as (plan & s' & P1 & P2 & P3).
    - split; [auto|]. split; [eauto|reflexivity].
    - intros i. destruct (Nat.lt_ge_cases i (length progs)) as [Hi|Hi].
      + apply (proj1 (Forall_forall _ _) Hn). now apply nth_In.
      + rewrite nth_overflow by exact Hi. constructor.
    - exact O3.
    - exact (mute_order order tr Hf O1).
    - exact O2.
    - exists plan. split; [exact P1|]. cbv zeta. unfold wshare in P2. injection P2 as <- <-. cbn [dbuf].
      destruct P3 as (_ & (r' & X2 & _) & X3). split; [|exact X3].
      destruct (wpainted_history draw shown E HP HE _ _ _ HU X2) as (_ & [_ _ _ HH] & _). exact HH.
  Qed.

  Lemma wown_areas (areas : nat -> area) (progs : list (list doing)) s k r tr c t' d' : wpainted draw shown E s k r ->
    (r = true -> covers (sees s)) ->
    (forall i j l c, i <> j -> areas i l c -> ~ areas j l c) ->
    (forall i d, In d (nth i progs []) -> keeps_to E (ksize k) (areas i) d) ->
    Forall (Forall (single_doing E shown)) progs -> progs <> [] -> Forall ends_shown progs ->
    wrun (screen_access draw E (g_state s) (g_old s)) (wstart (map doings_client progs) (wshare s)) tr c ->
    wfinished c -> S_Together.no_failure tr -> wshared c = (Some t', Some d') ->
    let v := c_view (w_con (t_w t')) in
    size_of_view v = ksize k /\
    forall p, in_bounds p (ksize k) ->
      (forall i, areas i (line p) (column p) ->
         cell_shows shown (t_default (g_t s)) v p (ink (picture E (concat (map strokes (nth i progs []))) k) (line p) (column p))) /\
      ((forall i, ~ areas i (line p) (column p)) ->
         cell_shows shown (t_default (g_t s)) v p (ink k (line p) (column p))).
  Proof.
    intros Hp Hcv Hdis Hk Hn Hne He R F Hf Hs.
    destruct (wthreads_draw progs s k r tr c t' d' Hp Hcv Hn R F Hf Hs) as (order & O1 & O2). cbv zeta in O2. destruct O2 as (_ & O2).
    assert (Hpl : order <> []).
    { intros ->. destruct progs as [|p0 progs]; [congruence|]. specialize (O1 0). cbn in O1. inversion He as [|? ? (l' & d & -> & _) _]; subst.
      destruct l'; discriminate O1. }
    rewrite (plan_shown E order k None Hpl) in O2.
    2: { intros i Hi. rewrite O1 in *. destruct (Nat.lt_ge_cases i (length progs)) as [Hl|Hl].
         - apply (proj1 (Forall_forall _ _) He). now apply nth_In.
         - rewrite nth_overflow in Hi by exact Hl. congruence. }
    destruct O2 as ((Z1 & Z2) & _). rewrite picture_size in Z1, Z2. cbv zeta. split; [exact Z1|].
    assert (Hpk : forall j d, In (j, d) order -> keeps_to E (ksize k) (areas j) d).
    { intros j d Hi. apply Hk. rewrite <- O1. unfold done_by. apply in_map_iff. exists (j, d). split; [reflexivity|].
      apply filter_In. split; [exact Hi|]. cbn. apply Nat.eqb_refl. }
    intros p Hin. specialize (Z2 p Hin). split.
    - intros i Hi. rewrite <- O1.
      rewrite <- (area_order E (ksize k) areas Hdis i order k k eq_refl eq_refl Hpk (fun _ _ _ => eq_refl) _ _ Hi). exact Z2.
    - intros Hi. rewrite <- (nobodys_order E (ksize k) areas order _ _ k eq_refl Hpk Hi). exact Z2.
  Qed.
End WinPicture.

(** ** Writing *)
Definition real (x : writing) : bool := match x with Single m => negb (no_move m) | _ => true end.
Definition wwriting_instrs (x : writing) : list instr :=
  match x with
  | Message l => [IAcq LWriter] ++ map (fun m => IAct (AW (WOp (forward m)))) l ++ [IRel LWriter]
  | Single m => if no_move m then [] else [IAcq LWriter; IAct (AW (WOp (forward m))); IRel LWriter]
  end.
Definition methods (x : writing) : list tmethod := match x with Message l => l | Single m => [m] end.
Definition wwriting_acts (x : writing) : list act := map (fun m => AW (WOp (forward m))) (methods x).

Lemma message_straight l k r : wcompile k = straight r ->
  wcompile (message_client l k) = straight (map (fun m => IAct (AW (WOp (forward m)))) l ++ IRel LWriter :: r).
Proof. intros H. induction l as [|m l IH]; cbn; [now rewrite H|now rewrite IH]. Qed.

Lemma single_straight m (k : client) r : wcompile k = straight r ->
  wcompile (Call (TWrite (forward m)) (fun _ => k)) = straight (wwriting_instrs (Single m) ++ r).
Proof.
  intros Hk. destruct m; try (destruct n); cbn; rewrite Hk; reflexivity.
Qed.

Lemma wwritings_straight l : wcompile (writings_client l) = straight (concat (map wwriting_instrs l)).
Proof.
  induction l as [|x l IH]; [reflexivity|]. cbn [map concat]. change (writings_client (x :: l)) with (writing_client x (writings_client l)).
  destruct x as [q|m]; cbn [writing_client].
  - cbn [wwriting_instrs wcompile wmethod]. rewrite (message_straight _ _ _ IH). rewrite <- !app_assoc. reflexivity.
  - apply single_straight. exact IH.
Qed.
Lemma message_parse l : forall cur don, fold_left istep (map (fun m => IAct (AW (WOp (forward m)))) l) (ISess true false cur don) =
  ISess true false (cur ++ map (fun m => AW (WOp (forward m))) l) don.
Proof. induction l as [|s l IH]; intros cur don; cbn; [now rewrite app_nil_r|]. rewrite IH, <- app_assoc. reflexivity. Qed.
Lemma wwriting_parse x don : fold_left istep (wwriting_instrs x) (ISess false false [] don) =
  ISess false false [] (don ++ map wwriting_acts (filter real [x])).
Proof.
  destruct x as [l|m]; cbn [wwriting_instrs real filter].
  - rewrite fold_left_app. change (fold_left istep [IAcq LWriter] (ISess false false [] don)) with (ISess true false [] don).
    rewrite fold_left_app, message_parse. reflexivity.
  - destruct (no_move m); cbn; [now rewrite app_nil_r|reflexivity].
Qed.
Lemma wwritings_parse l : forall don, fold_left istep (concat (map wwriting_instrs l)) (ISess false false [] don) =
  ISess false false [] (don ++ map wwriting_acts (filter real l)).
Proof.
  induction l as [|x l IH]; intros don; cbn [map concat]; [cbn; now rewrite app_nil_r|].
  rewrite fold_left_app, wwriting_parse, IH, <- app_assoc, <- map_app. cbn [filter]. destruct (real x); reflexivity.
Qed.
Lemma writings_follow b l : S_Locks.follows b None None (writings_client l).
Proof.
  induction l as [|x l IH]; [cbn; auto|]. change (writings_client (x :: l)) with (writing_client x (writings_client l)).
  set (k := writings_client l) in *. clearbody k. destruct x as [q|m]; cbn; (split; [reflexivity|]); intros _; try exact IH.
  induction q as [|m q IHq]; cbn; (split; [reflexivity|]); intros _; assumption.
Qed.

Lemma done_by_app {A} i (l1 l2 : list (nat * A)) : done_by i (l1 ++ l2) = done_by i l1 ++ done_by i l2.
Proof. unfold done_by. now rewrite filter_app, map_app. Qed.
Lemma done_by_own {A} i (l : list A) : done_by i (map (pair i) l) = l.
Proof. unfold done_by. induction l as [|x l IH]; [reflexivity|]. cbn. rewrite Nat.eqb_refl. cbn. now f_equal. Qed.
Lemma done_by_others {A} i j (l : list A) : j <> i -> done_by i (map (pair j) l) = [].
Proof. intros H. unfold done_by. induction l as [|x l IH]; [reflexivity|]. cbn. apply Nat.eqb_neq in H. now rewrite H. Qed.
Lemma done_by_all {A} (want : nat -> list A) n : forall i, done_by i (concat (map (fun j => map (pair j) (want j)) (seq 0 n))) = if i <? n then want i else [].
Proof.
  induction n as [|n IH]; intros i; [reflexivity|]. rewrite seq_S, map_app, concat_app, done_by_app, IH. cbn [map concat Nat.add]. rewrite app_nil_r.
  destruct (Nat.eq_dec i n) as [->|Hi].
  - rewrite done_by_own. replace (n <? n) with false by lia. replace (n <? S n) with true by lia. reflexivity.
  - rewrite done_by_others by auto. rewrite app_nil_r. destruct (i <? n) eqn:E1, (i <? S n) eqn:E2; try reflexivity; lia.
Qed.

Section WinWriting.
  Variables (draw : list N -> N -> view -> view) (default : N) (E : env).

  Let M := console_access draw E default.

  Lemma console_none l : forall s s', wreplays M l s s' -> fst s = None -> fst s' = None.
  Proof.
    induction l as [|[a r] l IH]; intros s s' H N; cbn [wreplays] in H; [now subst|]. destruct H as [_ H]. apply (IH _ _ H).
    destruct s as [w d]. cbn in N. subst w. destruct a; reflexivity.
  Qed.

  Lemma methods_replay (wrap : tmethod -> api_call) q : (forall m s, In m q -> win_api_run1 draw default E (wrap m) s = run_win draw default E (forward m) s) ->
    forall s rs l s', map fst rs = map (fun m => AW (WOp (forward m))) q -> mute rs ->
    wreplays M (rs ++ l) (Some s, tt) (Some s', tt) ->
    exists s1, win_api_run draw default E (map wrap q) s = Some s1 /\ wreplays M l (Some s1, tt) (Some s', tt).
  Proof.
    induction q as [|m q IH]; intros Hq s rs l s' Hm Hf H.
    - destruct rs; [|discriminate Hm]. exists s. auto.
    - destruct rs as [|[a r] rs]; [discriminate Hm|]. cbn [map fst] in Hm. injection Hm as -> Hm.
      destruct (mute_cons _ _ _ Hf) as [Hr Hf']. cbn [app wreplays] in H. destruct H as [H1 H2].
      unfold M, console_access, wmeans in H1, H2. cbn [on_writer] in H1, H2.
      cbn [map win_api_run]. rewrite Hq by now left.
      destruct (run_win draw default E (forward m) s) as [s1 []|s1 e| |]; cbn [told fst snd] in H1, H2.
      + apply (IH (fun m' s2 Hi => Hq m' s2 (or_intror Hi)) s1 rs l s' Hm Hf' H2).
      + destruct (Hr (EOs e)). congruence.
      + apply console_none in H2; [discriminate H2|reflexivity].
      + apply console_none in H2; [discriminate H2|reflexivity].
  Qed.

  Lemma writing_replay x s rs l s' : real x = true -> map fst rs = wwriting_acts x -> mute rs ->
    wreplays M (rs ++ l) (Some s, tt) (Some s', tt) ->
    exists s1, win_api_run draw default E (calls x) s = Some s1 /\ wreplays M l (Some s1, tt) (Some s', tt).
  Proof.
    intros Hx Hm Hf H. destruct x as [q|m].
    - exact (methods_replay OnGuard q (fun _ _ _ => eq_refl) s rs l s' Hm Hf H).
    - refine (methods_replay OnTerminal [m] _ s rs l s' Hm Hf H). intros m' s2 [<-|[]].
      cbn [win_api_run1]. rewrite terminal_is_guard. cbn in Hx. destruct (no_move m); [discriminate Hx|reflexivity].
  Qed.

  Lemma api_app c1 : forall c2 s s1, win_api_run draw default E c1 s = Some s1 ->
    win_api_run draw default E (c1 ++ c2) s = win_api_run draw default E c2 s1.
  Proof.
    induction c1 as [|c c1 IH]; intros c2 s s1 H; cbn in *; [now injection H as ->|].
    destruct (win_api_run1 draw default E c s); try discriminate H. now apply IH.
  Qed.

  Lemma wwriting_order order : forall (want : nat -> list writing) s s',
    (forall i, Forall (fun x => real x = true) (want i)) ->
    (forall i, map (map fst) (done_by i order) = map wwriting_acts (want i)) -> mute (concat (map snd order)) ->
    wreplays M (concat (map snd order)) (Some s, tt) (Some s', tt) ->
    exists plan : list (nat * writing), (forall i, done_by i plan = want i) /\
      win_api_run draw default E (concat (map calls (map snd plan))) s = Some s'.
  Proof.
    induction order as [|[j rs] order IH]; intros want s s' Hn Hw Hf H; cbn [map concat snd] in *.
    - cbn in H. exists []. split; [|cbn; congruence].
      intros i. specialize (Hw i). cbn in Hw. destruct (want i); [reflexivity|discriminate].
    - assert (Hj := Hw j). unfold done_by in Hj. cbn [filter fst] in Hj. rewrite Nat.eqb_refl in Hj. cbn [map snd] in Hj.
      destruct (want j) as [|x rest] eqn:Ew; [discriminate Hj|]. cbn [map] in Hj. injection Hj as Hd1 Hrest.
      assert (Hnj := Hn j). rewrite Ew in Hnj. inversion Hnj as [|? ? N1 N2]; subst.
      apply mute_app in Hf. destruct (writing_replay x s rs _ s' N1 Hd1 (proj1 Hf) H) as (s1 & R1 & H').
      destruct (IH (fun i => if j =? i then rest else want i) s1 s') as (plan & P1 & P2).
      + intros i. destruct (Nat.eqb_spec j i) as [Ei|Ei]; [exact N2|apply Hn].
      + intros i. specialize (Hw i). unfold done_by in Hw |- *. cbn [filter fst] in Hw.
        destruct (Nat.eqb_spec j i) as [Ei|Ei]; [subst i; exact Hrest|exact Hw].
      + exact (proj2 Hf).
      + exact H'.
      + exists ((j, x) :: plan). split.
        * intros i. specialize (P1 i). unfold done_by in *. cbn [filter fst].
          destruct (Nat.eqb_spec j i) as [Ei|Ei]; [|exact P1]. subst i. rewrite Ew. cbn [map snd]. f_equal. exact P1.
        * cbn [map snd concat]. rewrite (api_app _ _ _ _ R1). exact P2.
  Qed.

  (** Calls that do nothing have a place everywhere. *)
  Lemma unreal_run (l : list (nat * writing)) s : (forall x, In x l -> real (snd x) = false) ->
    win_api_run draw default E (concat (map calls (map snd l))) s = Some s.
  Proof.
    induction l as [|[i x] l IH]; intros H; [reflexivity|]. cbn [map snd concat]. rewrite (api_app _ _ s s).
    - apply IH. intros y Hy. apply H. now right.
    - specialize (H (i, x) (or_introl eq_refl)). cbn in H. destruct x as [q|m]; [discriminate H|].
      cbn [calls win_api_run win_api_run1]. rewrite terminal_is_guard. cbn in H. destruct (no_move m); [reflexivity|discriminate H].
  Qed.
  Lemma split_real x (l : list writing) : forall rest, filter real l = x :: rest ->
    exists pre post, l = pre ++ x :: post /\ (forall y, In y pre -> real y = false) /\ filter real post = rest.
  Proof.
    induction l as [|y l IH]; intros rest H; [discriminate H|]. cbn in H. destruct (real y) eqn:Ey.
    - injection H as -> H. exists [], l. split; [reflexivity|]. split; [intros z []|exact H].
    - destruct (IH rest H) as (pre & post & -> & P1 & P2). exists (y :: pre), post. split; [reflexivity|]. split; [|exact P2].
      intros z [<-|Hz]; auto.
  Qed.
  Lemma filled plan : forall (want : nat -> list writing) n s s', (forall i, n <= i -> want i = []) ->
    (forall i, done_by i plan = filter real (want i)) ->
    win_api_run draw default E (concat (map calls (map snd plan))) s = Some s' ->
    exists plan', (forall i, done_by i plan' = want i) /\ win_api_run draw default E (concat (map calls (map snd plan'))) s = Some s'.
  Proof.
    induction plan as [|[j x] plan IH]; intros want n s s' Hn Hp H.
    - exists (concat (map (fun j => map (pair j) (want j)) (seq 0 n))). split.
      + intros i. rewrite done_by_all. destruct (Nat.ltb_spec i n); [reflexivity|]. symmetry. auto.
      + cbn in H. injection H as <-. apply unreal_run. intros y Hy. apply in_concat in Hy. destruct Hy as (l & Hl & Hy).
        apply in_map_iff in Hl. destruct Hl as (i & <- & _). apply in_map_iff in Hy. destruct Hy as (z & <- & Hz). cbn.
        specialize (Hp i). cbn in Hp. destruct (real z) eqn:Ez; [|reflexivity].
        assert (X : In z (filter real (want i))) by (apply filter_In; auto). rewrite <- Hp in X. destruct X.
    - assert (Hj := Hp j). unfold done_by in Hj. cbn [filter fst map snd] in Hj. rewrite Nat.eqb_refl in Hj. cbn [map snd] in Hj.
      symmetry in Hj. apply split_real in Hj. destruct Hj as (pre & post & W & P1 & P2).
      cbn [map snd concat] in H.
      assert (R : exists s1, win_api_run draw default E (calls x) s = Some s1).
      { clear - H. revert s H. generalize (calls x). intros l. induction l as [|c l IHl]; intros s H; [now exists s|].
        cbn in *. destruct (win_api_run1 draw default E c s); try discriminate H. eauto. }
      destruct R as (s1 & R). rewrite (api_app _ _ _ _ R) in H.
      destruct (IH (fun i => if j =? i then post else want i) n s1 s') as (plan' & Q1 & Q2).
      + intros i Hi. destruct (Nat.eqb_spec j i) as [->|_]; [|auto]. rewrite (Hn i Hi) in W. destruct pre; discriminate W.
      + intros i. specialize (Hp i). unfold done_by in Hp |- *. cbn [filter fst] in Hp.
        destruct (Nat.eqb_spec j i) as [->|_]; [symmetry; exact P2|exact Hp].
      + exact H.
      + exists (map (pair j) pre ++ (j, x) :: plan'). split.
        * intros i. rewrite done_by_app. change ((j, x) :: plan') with ([(j, x)] ++ plan'). rewrite done_by_app, Q1.
          destruct (Nat.eqb_spec j i) as [->|Hi].
          -- rewrite done_by_own. change [(i, x)] with (map (pair i) [x]). rewrite done_by_own, W. reflexivity.
          -- rewrite done_by_others by exact Hi. change [(j, x)] with (map (pair j) [x]). rewrite done_by_others by exact Hi. reflexivity.
        * rewrite !map_app, concat_app. rewrite (api_app _ _ s s).
          -- cbn [map snd concat]. rewrite (api_app _ _ _ _ R). exact Q2.
          -- apply unreal_run. intros y Hy. apply in_map_iff in Hy. destruct Hy as (z & <- & Hz). apply P1. exact Hz.
  Qed.

  Hypothesis HD : S_WinApi.draws draw.
  Hypothesis Hdf : (default < 65536)%N.
  Hypothesis HU : (65536 <= Z.of_nat (umax E))%Z.

  Lemma wthreads_write (progs : list (list writing)) s F tr c s' : faces default (w_con s) F -> f_attrs F = w_at s -> view_ok (f_view F) ->
    Forall (Forall scalar_writing) progs ->
    wrun (console_access draw E default) (wstart (map writings_client progs) (Some s, tt)) tr c ->
    wfinished c -> S_Together.no_failure tr -> wshared c = (Some s', tt) ->
    exists (order : list (nat * writing)) F', (forall i, done_by i order = nth i progs []) /\
      win_effects draw default (concat (map calls (map snd order))) F F' /\ faces default (w_con s') F'.
  Proof.
    intros Hfa Ha Hv Hsc R Fi Hf Hs.
    destruct (wall_sessions (console_access draw E default) writings_client (fun l => concat (map wwriting_instrs l))
      (fun l => map wwriting_acts (filter real l)) progs (Some s, tt) tr c wwritings_straight (fun l => wwritings_parse l [])
      (writings_follow true) eq_refl R Fi) as (order & O1 & O2 & O3).
    rewrite Hs in O2.
    destruct (wwriting_order order (fun i => filter real (nth i progs [])) s s') as (plan0 & P1 & P2).
    - intros i. apply Forall_forall. intros x Hx. apply filter_In in Hx. exact (proj2 Hx).
    - exact O3.
    - exact (mute_order order tr Hf O1).
    - exact O2.
    - destruct (filled plan0 (fun i => nth i progs []) (length progs) s s') as (plan & Q1 & Q2).
      + intros i Hi. now apply nth_overflow.
      + exact P1.
      + exact P2.
      + destruct (win_api_does draw default E HD Hdf HU (concat (map calls (map snd plan))) s s' F) as (F' & G1 & G2 & _); try assumption.
        * apply Forall_forall. intros a Ha'. apply in_concat in Ha'. destruct Ha' as (l & Hl & Hi). apply in_map_iff in Hl.
          destruct Hl as (x & <- & Hx). apply in_map_iff in Hx. destruct Hx as ([j x'] & Ex & Hx). cbn in Ex. subst x'.
          assert (Hin : In x (nth j progs [])).
          { rewrite <- Q1. unfold done_by. apply in_map_iff. exists (j, x). split; [reflexivity|]. apply filter_In. split; [exact Hx|]. cbn. apply Nat.eqb_refl. }
          assert (Hj : j < length progs).
          { destruct (Nat.lt_ge_cases j (length progs)) as [Hj|Hj]; [exact Hj|]. rewrite nth_overflow in Hin by exact Hj. destruct Hin. }
          pose proof (proj1 (Forall_forall _ _) Hsc _ (nth_In progs [] Hj)) as Hq.
          pose proof (proj1 (Forall_forall _ _) Hq x Hin) as Hq2. unfold scalar_writing in Hq2. rewrite Forall_forall in Hq2. exact (Hq2 a Hi).
        * exists plan, F'. auto.
  Qed.
End WinWriting.
