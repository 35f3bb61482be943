(** Proofs about any programs that share a [Screen], whatever text they write (C121):
    the calls happen one after the other. *)
From Verif Require Import Base M_Utf8 M_Geom S_Geom M_Attr M_Buf S_Buf M_Writer S_Tty S_Writer P_Buf P_Buf2 P_Buf3 P_Writer P_Attr P_Writer3 M_Screen S_Screen P_Screen P_Screen2 P_Screen5 M_ScreenApi
  S_Canvas P_Canvas P_WholeScreen2 M_Locks S_Locks P_Locks P_Locks2 P_Blocks S_Together P_Together S_Loop P_Loop S_CursorMode P_CursorMode S_Program P_Program P_Program2
  S_WideCanvas S_WideProgram.

(** Nothing is double-width here, so that [screen_program] says nothing about text. *)
Definition no_width : env := M_Buf.Env 0 (fun _ => None) (fun _ => false).
Lemma none_wide t : no_wide no_width t.
Proof. apply Forall_forall. intros c _ ((_ & _ & _ & _ & [H|H]) & _); discriminate H. Qed.
Lemma uses_program p : uses_screen p -> screen_program no_width p.
Proof.
  induction p as [|c k IH]; cbn; [auto|]. intros [H1 H2]. split; [|intros r; apply IH, H2].
  destruct c; cbn in *; auto; destruct H1 as (m & ->); exists m; (split; [reflexivity|apply none_wide]).
Qed.

Section Turn.
  Variables (E : env) (C : tcfg).

  Lemma turn_app l s s1 : in_turn E C l s s1 -> forall l' s2, in_turn E C l' s1 s2 -> in_turn E C (l ++ l') s s2.
  Proof.
    induction 1; intros l' sz' H'; cbn [app]; [exact H'|..].
    - eapply turn_drawn; eauto.
    - eapply turn_shown; eauto.
    - eapply turn_shown_twice; eauto.
    - eapply turn_asked; eauto.
    - eapply turn_fitted; eauto.
    - eapply turn_guard; eauto.
  Qed.

  (** One action of a mark, other than showing, leads on. *)
  Lemma mark_turn s x r rest w' d' :
    replays E C ((mark_act x, r) :: rest) (share s) (Some w', Some d') -> (forall e, r <> AErr e) ->
    exists s', replays E C rest (share s') (Some w', Some d') /\ in_turn E C [x] s s' /\ (x = Shown -> refresh E C s = Ret s' tt).
  Proof.
    intros H Hf. assert (Hg := alive_not_gone E C _ _ _ _ _ _ H).
    cbn [replays] in H. destruct H as [H1 H2]. destruct x as [m| |m|sz]; cbn [mark_act] in *.
    - unfold share, meaning, dmeaning in H1, H2. cbn [dbuf dclr dreal] in H1, H2.
      destruct (run_buf_op E (sb s) (sforward m)) as [b|] eqn:Eb; cbn in H1, H2; [|congruence].
      exists (with_sb b s). split; [exact H2|]. split; [|discriminate]. eapply turn_drawn; [exact Eb|constructor].
    - destruct (refresh_replay E C s r H1 Hg Hf) as (s' & R1 & R2). exists s'. rewrite R1 in H2. split; [exact H2|].
      split; [eapply turn_shown; [exact R2|constructor]|auto].
    - unfold share, meaning, wmeaning in H1, H2. cbn [run_wop] in H1, H2.
      destruct (set_cursor_mode C m (wr s)) as [w []|w e| |] eqn:Em; cbn in H1, H2; try congruence.
      exists (with_wr w s). split; [exact H2|]. split; [|discriminate]. eapply turn_asked; [|constructor]. unfold on_writer. now rewrite Em.
    - unfold share, meaning, dmeaning in H1, H2. cbn [dbuf dclr dreal] in H1, H2.
      assert (U := update_writer E sz (sb s) (clr s) (real s) (wr s) (writer_new 0 [])).
      destruct (update_size E sz (Scr (sb s) (clr s) (real s) (writer_new 0 []))) as [s1|] eqn:Eu; cbn in H1, H2; [|congruence].
      exists (with_wr (wr s) s1). split; [exact H2|]. split; [|discriminate]. eapply turn_fitted; [|constructor]. destruct s; exact U.
  Qed.
  Lemma dropped_turn s r rest w' d' :
    replays E C ((AW WGuardDrop, r) :: rest) (share s) (Some w', Some d') ->
    exists s', replays E C rest (share s') (Some w', Some d') /\ in_turn E C [] s s'.
  Proof.
    intros H. assert (Hg := alive_not_gone E C _ _ _ _ _ _ H). cbn [replays] in H. destruct H as [H1 H2].
    unfold share, meaning, wmeaning in H1, H2.
    destruct (guard_drop (wr s)) as [w u|w e| |] eqn:Ed; cbn in H1, H2; try congruence.
    - exists (with_wr w s). split; [exact H2|]. eapply turn_guard; [exact Ed|constructor].
    - unfold guard_drop in Ed. destruct (flush (wr s)); discriminate.
  Qed.
  Lemma marks_turn q : forall s rs rest w' d', map fst rs = map mark_act q -> fine rs ->
    replays E C (rs ++ rest) (share s) (Some w', Some d') ->
    exists s', replays E C rest (share s') (Some w', Some d') /\ in_turn E C q s s'.
  Proof.
    induction q as [|x q IH]; intros s rs rest w' d' Hm Hf H.
    - destruct rs; [|discriminate Hm]. exists s. split; [exact H|constructor].
    - destruct rs as [|[a r] rs]; [discriminate Hm|]. cbn [map fst] in Hm. injection Hm as -> Hm.
      destruct (fine_cons _ _ _ Hf) as [Hr Hf']. cbn [app] in H.
      destruct (mark_turn _ _ _ _ _ _ H Hr) as (s' & H' & A' & _).
      destruct (IH _ _ _ _ _ Hm Hf' H') as (s2 & H2 & A2). exists s2. split; [exact H2|].
      exact (turn_app _ _ _ A' _ _ A2).
  Qed.
  Lemma mv_turn x s rs rest w' d' : map fst rs = mv_acts x -> fine rs ->
    replays E C (rs ++ rest) (share s) (Some w', Some d') ->
    exists s', replays E C rest (share s') (Some w', Some d') /\ in_turn E C (concat (vis x)) s s'.
  Proof.
    intros Hm Hf H.
    assert (G : forall q, map fst rs = map mark_act q ++ [AW WGuardDrop] ->
      exists s', replays E C rest (share s') (Some w', Some d') /\ in_turn E C q s s').
    { intros q Hmq. apply map_eq_app in Hmq. destruct Hmq as (r1 & r2 & -> & M1 & M2).
      destruct r2 as [|[a r] [|]]; try discriminate M2. injection M2 as ->.
      apply fine_app in Hf. rewrite <- app_assoc in H. cbn [app] in H.
      destruct (marks_turn _ _ _ _ _ _ M1 (proj1 Hf) H) as (s1 & H1 & A1). destruct (dropped_turn _ _ _ _ _ H1) as (s2 & H2 & A2).
      exists s2. split; [exact H2|]. rewrite <- (app_nil_r q). exact (turn_app _ _ _ A1 _ _ A2). }
    destruct x as [x|g| |]; cbn [vis concat mv_acts] in *; rewrite ?app_nil_r.
    - destruct x as [m| |m|sz].
      + apply (marks_turn [Drawn m] _ rs); auto.
      + destruct rs as [|[a1 r1] [|[a2 r2] [|[a3 r3] [|]]]]; try discriminate Hm. injection Hm as -> -> ->. cbn [app] in H.
        destruct (fine_cons _ _ _ Hf) as [F1 Hf1]. destruct (fine_cons _ _ _ Hf1) as [F2 _].
        destruct (mark_turn s Shown r1 _ _ _ H F1) as (s1 & H1 & _ & R1). destruct (mark_turn s1 Shown r2 _ _ _ H1 F2) as (s2 & H2 & _ & R2).
        destruct (dropped_turn _ _ _ _ _ H2) as (s3 & H3 & A3). exists s3. split; [exact H3|]. eapply turn_shown_twice; [now apply R1|now apply R2|exact A3].
      + apply (G [Asked m]). exact Hm.
      + apply (marks_turn [Fitted sz] _ rs); auto.
    - apply G. rewrite map_app, Hm, <- app_assoc. reflexivity.
    - exact (G [] Hm).
    - destruct rs; [|discriminate Hm]. exists s. split; [exact H|constructor].
  Qed.
  Lemma mvs_turn plan : forall order s w' d', map (map fst) order = map mv_acts plan -> fine (concat order) ->
    replays E C (concat order) (share s) (Some w', Some d') ->
    exists s', share s' = (Some w', Some d') /\ in_turn E C (concat (flat_map vis plan)) s s'.
  Proof.
    induction plan as [|x plan IH]; intros order s w' d' Hm Hf H.
    - destruct order; [|discriminate Hm]. cbn in H. exists s. split; [exact H|constructor].
    - destruct order as [|rs order]; [discriminate Hm|]. cbn [map] in Hm. injection Hm as M1 M2. cbn [concat] in H, Hf.
      apply fine_app in Hf. destruct (mv_turn x _ _ _ _ _ M1 (proj1 Hf) H) as (s' & H' & A').
      destruct (IH order _ _ _ M2 (proj2 Hf) H') as (s2 & H2 & A2).
      exists s2. split; [exact H2|]. cbn [flat_map]. rewrite concat_app. exact (turn_app _ _ _ A' _ _ A2).
  Qed.

  Lemma share_in_turn (progs : list client) s tr c w' d' :
    Forall (fun p => follows true None None p /\ uses_screen p) progs ->
    run E C (start progs (share s)) tr c -> finished c -> no_failure tr -> not_continued tr ->
    shared c = (Some w', Some d') ->
    exists order : list (nat * list mark), (forall i, did None (nth i progs Finish) (done_by i order)) /\
      (forall sz, In (Fitted sz) (concat (map snd order)) <-> exists i r, In (EvAct i (AD (DUpdateSize sz)) r) tr) /\
      exists s', in_turn E C (concat (map snd order)) s s' /\ share s' = (Some w', Some d').
  Proof.
    intros Hn R F Hf Hc Hs.
    assert (L1 : Forall (follows true None None) progs) by (refine (Forall_impl _ _ Hn); intros p [H _]; exact H).
    assert (L2 : Forall (follows false None None) progs) by (refine (Forall_impl _ _ L1); intros p; apply follows_less).
    assert (U := finished_unlocked E C _ _ _ _ L1 R F).
    destruct (sessions_atomic E C _ _ tr c L2 R (U LWriter) (U LData)) as (order & O1 & O2).
    rewrite Hs in O2. assert (Hfine := fine_order order tr Hf O1).
    assert (Hok := replays_ok E C _ _ _ _ O2 Hfine).
    assert (Hwalk : forall i, exists l, map (map fst) (sessions i tr) = map mv_acts l /\ did None (nth i progs Finish) (flat_map vis l) /\
      (forall sz, In (Fitted sz) (concat (flat_map vis l)) <-> exists r, In (EvAct i (AD (DUpdateSize sz)) r) tr)).
    { intros i. destruct (jwalk_run E C i _ _ _ R) as (is & W1 & W2 & W3). rewrite (F i) in W1. cbn [start threads] in W1.
      assert (Hi : follows true None None (nth i progs Finish) /\ screen_program no_width (nth i progs Finish)).
      { destruct (Nat.lt_ge_cases i (length progs)) as [Hi|Hi].
        - destruct (proj1 (Forall_forall _ _) Hn _ (nth_In _ Finish Hi)) as [X1 X2]. split; [exact X1|now apply uses_program].
        - rewrite nth_overflow by exact Hi. repeat split. }
      assert (Hq : forall mo tk kp r, ~ In (JAct (AW (WPrepare mo tk kp)) r) is) by (intros mo tk kp r Hx; exact (Hc _ _ _ _ _ (W3 _ _ Hx))).
      assert (Hcur : cur_ok no_width None []) by reflexivity.
      destruct (client_walks no_width (nth i progs Finish) None None is [] [] (proj1 Hi) (proj2 Hi) W1 Hq Hcur) as (ls & l & T1 & T2 & T3 & T4 & T5).
      cbn [holds_guard] in T1. rewrite T1 in W2. assert (Hls : sessions i tr = ls) by (unfold sessions; now rewrite W2).
      assert (Hm : map (map fst) ls = map mv_acts l) by (clear - T2; induction T2 as [|x y xs ys H _ IH]; cbn; congruence).
      exists l. rewrite Hls. split; [exact Hm|]. split; [|apply fits_told; [now rewrite Hls|now rewrite W2]].
      - apply T5. intros a r Hx. apply (Hok a r). rewrite <- Hls, <- O1 in Hx. apply in_concat in Hx. destruct Hx as (z & Z1 & Z2).
        apply in_concat. exists z. split; [|exact Z2]. unfold done_by in Z1. apply in_map_iff in Z1. destruct Z1 as (u & <- & Z1).
        apply in_map. apply filter_In in Z1. apply Z1. }
    assert (Hch : forall n, exists f : nat -> list mv, forall i, i < n -> map (map fst) (sessions i tr) = map mv_acts (f i) /\
      did None (nth i progs Finish) (flat_map vis (f i)) /\
      (forall sz, In (Fitted sz) (concat (flat_map vis (f i))) <-> exists r, In (EvAct i (AD (DUpdateSize sz)) r) tr)).
    { induction n as [|n [f Hfn]]; [exists (fun _ => []); intros i Hi; lia|]. destruct (Hwalk n) as (l & Hl).
      exists (fun i => if i =? n then l else f i). intros i Hi. destruct (Nat.eqb_spec i n) as [->|Hni]; [exact Hl|]. apply Hfn. lia. }
    destruct (Hch (length progs)) as (f & Hfl).
    set (want := fun i => if i <? length progs then f i else []).
    assert (Hend : forall i, length progs <= i -> sessions i tr = []).
    { intros i Hi. destruct (jwalk_run E C i _ _ _ R) as (is & W1 & W2 & _). rewrite (F i) in W1. cbn [start threads] in W1.
      rewrite nth_overflow in W1 by exact Hi. inversion W1; subst. unfold sessions. now rewrite W2. }
    destruct (order_plan_of mv_acts order want) as (plan & P1 & P2).
    { intros i. unfold done_by. rewrite O1. unfold want. destruct (Nat.ltb_spec i (length progs)) as [Hi|Hi].
      - apply Hfl, Hi.
      - now rewrite Hend. }
    destruct (mvs_turn (map snd plan) (map snd order) s w' d' P2 Hfine O2) as (s' & Q1 & Q2).
    exists (visible_marks plan). split; [|split; [|rewrite visible_marks_snd; eauto]].
    2: { intros sz. unfold visible_marks. rewrite visible_fits. split; intros (i & X); exists i.
      - rewrite P1 in X. unfold want in X. destruct (Nat.ltb_spec i (length progs)) as [Hi|Hi]; [|destruct X]. now apply (Hfl i Hi).
      - rewrite P1. unfold want. destruct (Nat.ltb_spec i (length progs)) as [Hi|Hi]; [now apply (Hfl i Hi)|]. exfalso. destruct X as (r & X).
        destruct (jwalk_run E C i _ _ _ R) as (is & W1 & W2 & _). rewrite (F i) in W1. cbn [start threads] in W1.
        rewrite nth_overflow in W1 by exact Hi. inversion W1; subst. destruct (events_session _ _ _ _ X) as [Y|Y]; [rewrite W2 in Y; destruct Y|].
        rewrite (Hend i Hi) in Y. destruct Y. }
    intros i. rewrite visible_marks_by, P1. unfold want. destruct (Nat.ltb_spec i (length progs)) as [Hi|Hi]; [apply Hfl, Hi|].
    rewrite nth_overflow by exact Hi. constructor.
  Qed.
End Turn.

Lemma as_one_thread E C (progs : list client) s tr c w' d' :
  Forall (fun p => follows true None None p /\ uses_screen p) progs ->
  run E C (start progs (share s)) tr c -> finished c -> no_failure tr -> not_continued tr ->
  shared c = (Some w', Some d') ->
  exists order : list (nat * list mark), (forall i, did None (nth i progs Finish) (done_by i order)) /\
    (forall sz, In (Fitted sz) (concat (map snd order)) <-> exists i r, In (EvAct i (AD (DUpdateSize sz)) r) tr) /\
    exists s', in_turn E C (concat (map snd order)) s s' /\ share s' = (Some w', Some d').
Proof. exact (share_in_turn E C progs s tr c w' d'). Qed.
