(** Proofs about threads that draw on one screen with double-width characters (C101). *)
From Verif Require Import Base M_Utf8 M_Geom M_Attr M_Buf S_Buf M_Writer S_Tty S_Writer P_Writer M_Screen S_Screen P_Screen P_Screen2 P_Screen5 M_ScreenApi
  S_Canvas P_Canvas S_WideCanvas P_WideCanvas P_WideCanvas2 M_Locks S_Locks P_Locks P_Locks2 P_Blocks S_Together P_Together S_WideTogether
  S_Geom S_Emu P_Emu P_Sched.

(** The order of the sessions is an order of the doings. *)
Lemma order_plan (order : list (nat * list (act * ans))) : forall (want : nat -> list doing),
  (forall i, map (map fst) (done_by i order) = map doing_acts (want i)) ->
  exists plan : list (nat * doing), (forall i, done_by i plan = want i) /\
    map (map fst) (map snd order) = map doing_acts (map snd plan).
Proof.
  induction order as [|[j rs] order IH]; intros want Hw.
  - exists []. split; [|reflexivity]. intros i. specialize (Hw i). cbn in Hw. destruct (want i); [reflexivity|discriminate].
  - assert (Hj := Hw j). unfold done_by in Hj. cbn [filter fst] in Hj. rewrite Nat.eqb_refl in Hj. cbn [map snd] in Hj.
    destruct (want j) as [|d rest] eqn:Ew; [discriminate Hj|]. cbn [map] in Hj. injection Hj as Hd1 Hrest.
    destruct (IH (fun i => if j =? i then rest else want i)) as (plan & P1 & P2).
    + intros i. specialize (Hw i). unfold done_by in Hw |- *. cbn [filter fst] in Hw.
      destruct (Nat.eqb_spec j i) as [Ei|Ei]; [subst i; exact Hrest|exact Hw].
    + exists ((j, d) :: plan). split; [|cbn [map snd]; now rewrite Hd1, P2].
      intros i. specialize (P1 i). unfold done_by in *. cbn [filter fst].
      destruct (Nat.eqb_spec j i) as [Ei|Ei]; [|exact P1]. subst i. rewrite Ew. cbn [map snd]. f_equal. exact P1.
Qed.

Section Picture.
  Variables (E : env) (C : tcfg) (K : tty).
  Hypothesis HE : env_ok E.
  Hypothesis HC : env_chars E.
  Hypothesis Hco : caps_coherent C.
  Hypothesis HK : implements E C K.

  (** [last]: what the last refresh left; [new]: the picture of the last refresh since the
      threads started. *)
  Fixpoint wshot (l : list stroke) (k : wcanvas) (last : option shot) : option shot :=
    match l with
    | [] => last
    | Draw m :: l => wshot l (wdraw E m k) last
    | Show :: l => wshot l k (Some (next_shot last k))
    end.
  Definition wdrawn (s0 : scr) (t0 : tstate K) (s : scr) (k : wcanvas) (last : option shot) (new : option wcanvas) : Prop :=
    exists x, stream (wr s) = stream (wr s0) ++ x /\ wpainted E C K s (feed K t0 x) k last /\
    match new with
    | Some k' => obuf (wr s) = [] /\ exists v, look K (feed K t0 x) = Some v /\ wseen C v k'
    | None => x = []
    end.

  Lemma wdrawn_draw s0 t0 s k last new m b : wdrawn s0 t0 s k last new -> easy E m k ->
    screen_method E m (sb s) = Val b -> wdrawn s0 t0 (with_sb b s) (wdraw E m k) last new.
  Proof.
    intros (x & X1 & X2 & X3) Hn Hm. exists x. split; [exact X1|]. split; [now apply WPt_method|].
    destruct new; exact X3.
  Qed.
  Lemma wdrawn_show s0 t0 s k last new s' : wdrawn s0 t0 s k last new -> (forall h, last = Some h -> mends h k) ->
    refresh E C s = Ret s' tt -> wdrawn s0 t0 s' k (Some (next_shot last k)) (Some k).
  Proof.
    intros (x & X1 & X2 & X3) Hov Hr.
    destruct (wpainting_shows E HE C K HC Hco HK _ _ _ _ X2) as (_ & _ & P).
    destruct (wpainted_history E HE C K HC Hco HK _ _ _ _ X2) as (Hh & _).
    destruct (history_inv E C HE HC K Hco HK _ _ _ _ (stay_care E C) Hh) as (v0 & V1 & Hi).
    assert (G := sgr_refresh E C s (f_whole _ _ (i_frame _ _ _ _ Hi))). rewrite Hr in G. destruct G as (_ & y & Hy).
    destruct (P s' y Hov Hr Hy) as (P1 & v & P2 & P3 & P4).
    exists (x ++ y). rewrite (feed_app _ _ _ HK). split; [rewrite Hy, X1; now rewrite app_assoc|]. split; [eapply WPt_refresh; eassumption|].
    split; [exact P1|]. exists v. split; [exact P2|]. split; [exact P3|exact P4].
  Qed.

  Lemma wshow_replay s0 t0 s k last new r l w' d' : wdrawn s0 t0 s k last new -> (forall h, last = Some h -> mends h k) ->
    replays E C ((ARefresh, r) :: l) (share s) (Some w', Some d') -> (forall e, r <> AErr e) ->
    exists s', replays E C l (share s') (Some w', Some d') /\ wdrawn s0 t0 s' k (Some (next_shot last k)) (Some k).
  Proof.
    intros Hd Hov H Hf. assert (Hg := alive_not_gone E C _ _ _ _ _ _ H).
    cbn [replays] in H. destruct H as [H1 H2]. destruct (refresh_replay E C s r H1 Hg Hf) as (s' & R1 & R2).
    exists s'. rewrite R1 in H2. split; [exact H2|]. eapply wdrawn_show; eauto.
  Qed.
  Lemma wdraw_replay s0 t0 s k last new m r l w' d' : wdrawn s0 t0 s k last new -> easy E m k ->
    replays E C ((AD (DBuf (sforward m)), r) :: l) (share s) (Some w', Some d') ->
    exists s', replays E C l (share s') (Some w', Some d') /\ wdrawn s0 t0 s' (wdraw E m k) last new.
  Proof.
    intros Hd Hn H. assert (Hg := alive_not_gone E C _ _ _ _ _ _ H).
    cbn [replays] in H. destruct H as [H1 H2]. unfold share, meaning, dmeaning in H1, H2. cbn [dbuf dclr dreal] in H1, H2.
    destruct (run_buf_op E (sb s) (sforward m)) as [b|] eqn:Eb; cbn in H1, H2; [|congruence].
    exists (with_sb b s). split; [exact H2|]. now apply wdrawn_draw.
  Qed.
  Lemma wdrop_replay s0 t0 s k last k' r l w' d' : wdrawn s0 t0 s k last (Some k') ->
    replays E C ((AW WGuardDrop, r) :: l) (share s) (Some w', Some d') -> replays E C l (share s) (Some w', Some d').
  Proof.
    intros (x & _ & _ & X3 & _) H. cbn [replays] in H. destruct H as [_ H]. unfold share, meaning, wmeaning, guard_drop in H.
    rewrite (flush_nothing _ X3) in H. exact H.
  Qed.

  Lemma wpicture_app q1 : forall q2 k, wpicture E (q1 ++ q2) k = wpicture E q2 (wpicture E q1 k).
  Proof. induction q1 as [|[m|] q1 IH]; intros q2 k; cbn; auto. Qed.
  Lemma wdisplayed_app q1 : forall q2 k last, wdisplayed E (q1 ++ q2) k last = wdisplayed E q2 (wpicture E q1 k) (wdisplayed E q1 k last).
  Proof. induction q1 as [|[m|] q1 IH]; intros q2 k last; cbn; auto. Qed.
  Lemma wshot_app q1 : forall q2 k last, wshot (q1 ++ q2) k last = wshot q2 (wpicture E q1 k) (wshot q1 k last).
  Proof. induction q1 as [|[m|] q1 IH]; intros q2 k last; cbn; auto. Qed.
  Lemma readily_app q1 : forall q2 k last, readily E (q1 ++ q2) k last ->
    readily E q1 k last /\ readily E q2 (wpicture E q1 k) (wshot q1 k last).
  Proof.
    induction q1 as [|[m|] q1 IH]; intros q2 k last H; cbn [app readily wpicture wshot] in *; [auto| |];
      destruct H as [H1 H2]; apply IH in H2; tauto.
  Qed.

  Lemma wstrokes_replay q : forall s0 t0 s k last new rs l w' d', wdrawn s0 t0 s k last new -> readily E q k last ->
    map fst rs = map stroke_act q -> fine rs -> replays E C (rs ++ l) (share s) (Some w', Some d') ->
    exists s', replays E C l (share s') (Some w', Some d') /\
      wdrawn s0 t0 s' (wpicture E q k) (wshot q k last) (wdisplayed E q k new).
  Proof.
    induction q as [|[m|] q IH]; intros s0 t0 s k last new rs l w' d' Hd Hn Hm Hf H.
    - destruct rs; [|discriminate Hm]. exists s. auto.
    - destruct rs as [|[a r] rs]; [discriminate Hm|]. cbn [map fst stroke_act] in Hm. injection Hm as -> Hm.
      destruct Hn as [N1 N2]. destruct (fine_cons _ _ _ Hf) as [_ Hf']. cbn [app] in H.
      destruct (wdraw_replay _ _ _ _ _ _ _ _ _ _ _ Hd N1 H) as (s' & H' & D').
      exact (IH _ _ _ _ _ _ _ _ _ _ D' N2 Hm Hf' H').
    - destruct rs as [|[a r] rs]; [discriminate Hm|]. cbn [map fst stroke_act] in Hm. injection Hm as -> Hm.
      destruct Hn as [N1 N2]. destruct (fine_cons _ _ _ Hf) as [Hr Hf']. cbn [app] in H.
      destruct (wshow_replay _ _ _ _ _ _ _ _ _ _ Hd N1 H Hr) as (s' & H' & D').
      exact (IH _ _ _ _ _ _ _ _ _ _ D' N2 Hm Hf' H').
  Qed.

  Lemma wdoing_replay d s0 t0 s k last new rs l w' d' : wdrawn s0 t0 s k last new -> readily E (strokes d) k last ->
    map fst rs = doing_acts d -> fine rs -> replays E C (rs ++ l) (share s) (Some w', Some d') ->
    exists s', replays E C l (share s') (Some w', Some d') /\
      wdrawn s0 t0 s' (wpicture E (strokes d) k) (wshot (strokes d) k last) (wdisplayed E (strokes d) k new).
  Proof.
    intros Hd Hn Hm Hf H.
    assert (G : forall q, readily E (q ++ [Show]) k last -> map fst rs = map stroke_act (q ++ [Show]) ++ [AW WGuardDrop] ->
      exists s', replays E C l (share s') (Some w', Some d') /\
        wdrawn s0 t0 s' (wpicture E (q ++ [Show]) k) (wshot (q ++ [Show]) k last) (wdisplayed E (q ++ [Show]) k new)).
    { intros q Hq Hmq. apply map_eq_app in Hmq. destruct Hmq as (r1 & r2 & -> & M1 & M2).
      destruct r2 as [|[a r] [|]]; try discriminate M2. injection M2 as ->.
      apply fine_app in Hf. rewrite <- app_assoc in H. cbn [app] in H.
      destruct (wstrokes_replay _ _ _ _ _ _ _ _ _ _ _ Hd Hq M1 (proj1 Hf) H) as (s' & H' & D').
      rewrite wdisplayed_app, wshot_app in *. cbn [wdisplayed wshot] in *. exists s'. split; [|exact D'].
      exact (wdrop_replay _ _ _ _ _ _ _ _ _ _ D' H'). }
    destruct d as [m| |q]; cbn [strokes doing_acts] in *.
    - exact (wstrokes_replay [Draw m] _ _ _ _ _ _ rs l w' d' Hd Hn Hm Hf H).
    - (* shown twice: the second time changes nothing *)
      destruct rs as [|[a0 r0] [|[a1 r1] [|[a2 r2] [|]]]]; try discriminate Hm. injection Hm as -> -> ->. cbn [app] in H.
      destruct (fine_cons _ _ _ Hf) as [Hr0 Hf1]. destruct (fine_cons _ _ _ Hf1) as [Hr1 _]. destruct Hn as [N1 _].
      assert (Hg := alive_not_gone E C _ _ _ _ _ _ H). cbn [replays] in H. destruct H as [H1 H2].
      destruct (refresh_replay E C s r0 H1 Hg Hr0) as (s1 & R1 & R2). rewrite R1 in H2.
      assert (D1 := wdrawn_show _ _ _ _ _ _ _ Hd N1 R2).
      change (replays E C ((ARefresh, r1) :: (AW WGuardDrop, r2) :: l) (share s1) (Some w', Some d')) in H2.
      assert (Hg1 := alive_not_gone E C _ _ _ _ _ _ H2). destruct H2 as [H3 H4].
      destruct (refresh_replay E C s1 r1 H3 Hg1 Hr1) as (s2 & R3 & R4).
      rewrite (P_Screen3.refresh_twice E C _ _ _ R2) in R4. injection R4 as <-. rewrite R3 in H4.
      exists s1. split; [|exact D1]. exact (wdrop_replay _ _ _ _ _ _ _ _ _ _ D1 H4).
    - apply (G q Hn). rewrite map_app, Hm, <- app_assoc. reflexivity.
  Qed.

  Lemma plan_replay plan : forall order s0 t0 s k last new w' d', wdrawn s0 t0 s k last new ->
    readily E (concat (map strokes plan)) k last ->
    map (map fst) order = map doing_acts plan -> fine (concat order) ->
    replays E C (concat order) (share s) (Some w', Some d') ->
    exists s', share s' = (Some w', Some d') /\
      wdrawn s0 t0 s' (wpicture E (concat (map strokes plan)) k) (wshot (concat (map strokes plan)) k last)
        (wdisplayed E (concat (map strokes plan)) k new).
  Proof.
    induction plan as [|d plan IH]; intros order s0 t0 s k last new w' d' Hd Hr Hm Hf H; (destruct order as [|rs order]; try discriminate Hm).
    - exists s. cbn in H. auto.
    - cbn [map concat] in *. injection Hm as Hm1 Hm2. apply fine_app in Hf. apply readily_app in Hr.
      destruct (wdoing_replay d _ _ _ _ _ _ _ _ _ _ Hd (proj1 Hr) Hm1 (proj1 Hf) H) as (s' & H' & D').
      rewrite wpicture_app, wshot_app, wdisplayed_app. exact (IH _ _ _ _ _ _ _ _ _ D' (proj2 Hr) Hm2 (proj2 Hf) H').
  Qed.

  Lemma wthreads_draw (progs : list (list doing)) s t k last tr c w' d' : wpainted E C K s t k last ->
    run E C (start (map doings_client progs) (share s)) tr c -> finished c -> no_failure tr ->
    shared c = (Some w', Some d') ->
    exists order : list (nat * doing), (forall i, done_by i order = nth i progs []) /\
      let l := concat (map strokes (map snd order)) in
      (readily E l k last ->
       wholds (dbuf d') (wpicture E l k) /\
       exists x, stream w' = stream (wr s) ++ x /\
       match wdisplayed E l k None with
       | Some k' => obuf w' = [] /\ exists v, look K (feed K t x) = Some v /\ wseen C v k'
       | None => x = []
       end).
  Proof.
    intros Hp R F Hf Hs.
    assert (L : forall b, Forall (follows b None None) (map doings_client progs)).
    { intros b. apply Forall_forall. intros q Hq. apply in_map_iff in Hq. destruct Hq as (l & <- & _). apply doings_follow. }
    assert (U := finished_unlocked E C _ _ _ _ (L true) R F).
    destruct (sessions_atomic E C _ _ tr c (L false) R (U LWriter) (U LData)) as (order & O1 & O2).
    rewrite Hs in O2.
    destruct (order_plan order (fun i => nth i progs [])) as (plan & P1 & P2).
    { intros i. unfold done_by. rewrite O1.
      rewrite (straight_sessions E C (concat (map doing_instrs (nth i progs []))) i _ _ _ R); [|cbn [start threads]|apply F].
      + rewrite doings_parse. reflexivity.
      + change Finish with (doings_client []). rewrite map_nth. apply doings_straight. }
    exists plan. split; [exact P1|]. cbv zeta. intros Hr.
    destruct (plan_replay (map snd plan) (map snd order) s t s k last None w' d') as (s' & Q1 & Q2); auto.
    - exists []. rewrite app_nil_r, (feed_nil _ _ _ HK). auto.
    - exact (fine_order order tr Hf O1).
    - unfold share in Q1. injection Q1 as <- <-. cbn [dbuf]. destruct Q2 as (x & X1 & X2 & X3). split.
      + destruct (wpainted_history E HE C K HC Hco HK _ _ _ _ X2) as [_ [F0 _]]. destruct F0 as [F1 F2 F3 F4 F5 F6].
        repeat split; auto. intros p Hp2. exact (good_held E _ _ _ (F6 p Hp2)).
      + exists x. split; [exact X1|]. exact X3.
  Qed.
End Picture.

(** ** For the examples *)
Definition readilyb (E : env) : list stroke -> wcanvas -> option shot -> bool :=
  fix go l k last :=
    match l with
    | [] => true
    | Draw m :: l => easyb E m k && go l (wdraw E m k) last
    | Show :: l => mends_last last k && go l k (Some (next_shot last k))
    end.
Lemma readilyb_ok E l : forall k last, readilyb E l k last = true -> readily E l k last.
Proof.
  induction l as [|[m|] l IH]; intros k last H; cbn [readilyb readily] in *; [exact I| |];
    apply andb_prop in H; destruct H as [H1 H2]; (split; [|now apply IH]).
  - now apply easyb_ok.
  - now apply mends_last_ok.
Qed.

(** Two threads that do one thing each. *)
Lemma two_orders {A} (d0 d1 : A) order : (forall i, done_by i order = nth i [[d0]; [d1]] []) ->
  order = [(0, d0); (1, d1)] \/ order = [(1, d1); (0, d0)].
Proof.
  intros H. assert (H0 := H 0). assert (H1 := H 1). unfold done_by in *. cbn [nth] in H0, H1.
  assert (T : forall l : list (nat * A), (forall i, map snd (filter (fun x => fst x =? i) l) = []) -> l = []).
  { intros [|[j d] l] Hl; [reflexivity|]. specialize (Hl j). cbn in Hl. rewrite Nat.eqb_refl in Hl. discriminate. }
  assert (U : forall j (d : A) l, (forall i, map snd (filter (fun x => fst x =? i) l) = if j =? i then [d] else []) -> l = [(j, d)]).
  { intros j d [|[j' d'] l] Hl.
    - specialize (Hl j). rewrite Nat.eqb_refl in Hl. discriminate.
    - assert (Hj := Hl j'). cbn in Hj. rewrite Nat.eqb_refl in Hj. destruct (Nat.eqb_spec j j') as [->|]; [|discriminate].
      injection Hj as -> _. f_equal. apply T. intros i. specialize (Hl i). cbn in Hl. destruct (j' =? i); [|exact Hl].
      now injection Hl. }
  destruct order as [|[j d] l]; [discriminate H0|].
  assert (Hj := H j). cbn [filter fst] in Hj. rewrite Nat.eqb_refl in Hj.
  destruct j as [|[|j]].
  - left. cbn in Hj. injection Hj as -> _. f_equal. apply U. intros i. specialize (H i). cbn in H.
    destruct i as [|[|i]]; cbn in *; [now injection H|exact H|]. now destruct i.
  - right. cbn in Hj. injection Hj as -> _. f_equal. apply U. intros i. specialize (H i). cbn in H.
    destruct i as [|[|i]]; cbn in *; [exact H|now injection H|]. now destruct i.
  - cbn in Hj. destruct j; discriminate.
Qed.

Section Demo.
  Variable E : env.
  Hypothesis HE : env_ok E.

  Lemma wtogether_ok sz sc progs sch P : screen_size sz -> whole_writes sc -> together E sz sc progs sch P = true ->
    exists s t tr c w' d' x v, wpainted E ansi_cfg (ansi_tty E) s t (wblank sz) (Some (first_shot (wblank sz))) /\
      run E ansi_cfg (start (map doings_client progs) (share s)) tr c /\ finished c /\ no_failure tr /\
      shared c = (Some w', Some d') /\ stream w' = stream (wr s) ++ x /\
      look (ansi_tty E) (feed (ansi_tty E) t x) = Some v /\ P v = true.
  Proof.
    intros Hs Hw H. unfold together in H. destruct (P_Screen5.start E sz sc) as [[s t]|] eqn:Es; [|discriminate].
    destruct (srun _ _ _ _ _) as [[tr c]|] eqn:Er; [|discriminate].
    apply andb_prop in H. destruct H as [H H3]. apply andb_prop in H. destruct H as [H1 H2].
    destruct (shared c) as [[w'|] [d'|]] eqn:Ec; try discriminate.
    destruct (grown _ _) as [x|] eqn:Eg; [|discriminate]. destruct (look _ _) as [v|] eqn:El; [|discriminate].
    assert (R := srun_ok E ansi_cfg sch [] _ _ tr c (run_nil _ _ _) Er).
    exists s, t, tr, c, w', d', x, v. split; [|split; [exact R|split; [|split; [|split; [exact Ec|split; [|split; [exact El|exact H3]]]]]]].
    - unfold P_Screen5.start in Es. destruct (screen_new _ _ _ _ _) as [s2 []| | |] eqn:En; try discriminate.
      injection Es as <- <-.
      apply (WPt_new E ansi_cfg (ansi_tty E) sz (writer_new (N.to_nat 8192) sc) s2 (emu_new sz)
        (View sz (repeat (VC [SPACE] no_attrs) (total sz)) (Cursor 0 0) no_attrs true)); auto.
      cbn [stream writer_new dev obuf app]. rewrite (feed_nil _ _ _ (ansi_implements E HE)). apply emu_new_look.
    - intros i. destruct (Nat.lt_ge_cases i (length progs)) as [Hi|Hi]; [|exact (thread_past E _ _ _ _ _ R Hi)].
      rewrite forallb_forall in H1. specialize (H1 i). rewrite in_seq in H1. specialize (H1 ltac:(lia)).
      destruct (threads c i); try discriminate. reflexivity.
    - apply no_fail_ok. now destruct (existsb is_fail tr).
    - exact (grown_ok _ _ _ Eg).
  Qed.
End Demo.
