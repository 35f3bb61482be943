(** Proofs about programs with several terminals (C87). *)
From Verif Require Import Base M_Utf8 S_Utf8 M_Geom M_Seq S_Seq M_Signal M_Util M_Input S_Input P_Input
  M_Writer S_Writer P_Writer M_Prepare M_Reader S_Prepare S_Reader P_Prepare P_Prepare2 P_Reader P_Reader2 P_Reader3 P_Timeout M_Process S_Process.
Local Open Scope N_scope.

Lemma back_where cfg s s1 st s2 s3 : prepared_from cfg s s1 st -> restored_to st s2 s3 ->
  tio s3 = tio s /\ resume_cfg s3 = resume_cfg s /\ forall n, disp s3 n = if handled cfg n then disp s n else disp s2 n.
Proof.
  intros (_ & P1 & P2 & P3 & P4 & P5 & P6 & P7 & P8 & P9 & P10 & P11) (_ & R1 & R2 & R3 & R4).
  split; [congruence|]. split; [congruence|]. intros n. rewrite R4, P6, P7, P8, P9, P10. unfold back, handled.
  destruct (N.eqb_spec n SIGCONT) as [E|_]; [rewrite E; reflexivity|].
  destruct (N.eqb_spec n SIGINT) as [E|_]; [rewrite E; destruct (ss_contains _ Interrupt); reflexivity|].
  destruct (N.eqb_spec n SIGTSTP) as [E|_]; [rewrite E; destruct (ss_contains _ Suspend); reflexivity|].
  destruct (N.eqb_spec n SIGQUIT) as [E|_]; [rewrite E; destruct (ss_contains _ Quit); reflexivity|].
  destruct (N.eqb_spec n SIGWINCH) as [E|_]; [rewrite E; reflexivity|]. reflexivity.
Qed.

(** What is left of the timeline changes neither settings nor dispositions. *)
Lemma settle_keeps s : tio (settle s) = tio s /\ resume_cfg (settle s) = resume_cfg s /\ disp (settle s) = disp s.
Proof.
  unfold settle. enough (H : forall l z, let z' := fold_left (fun s t => happens t s) l z in
    tio z' = tio z /\ resume_cfg z' = resume_cfg z /\ disp z' = disp z) by (apply (H (time s) (with_time [] s))).
  induction l as [|k l IH]; intros z; [repeat split|]. cbn [fold_left]. specialize (IH (happens k z)). cbn in IH |- *.
  destruct IH as (H1 & H2 & H3). rewrite H1, H2, H3. destruct k; cbn [happens]; try (repeat split; reflexivity).
  destruct (disp z n); repeat split; reflexivity.
Qed.
Lemma settle_quiet s : Forall no_signal (time s) -> last_sig (settle s) = last_sig s.
Proof.
  unfold settle. intros H. enough (G : forall z, last_sig (fold_left (fun s t => happens t s) (time s) z) = last_sig z) by exact (G (with_time [] s)).
  induction H as [|k l Hk Hl IH]; intros z; [reflexivity|]. cbn [fold_left]. rewrite IH. destruct k; [destruct Hk|..]; reflexivity.
Qed.

Section Nested.
  Variables (C : nat -> tcfg) (m : nat -> seq_map) (on : nat -> nat).
  Hypothesis Hm : forall i, key_map (m i).

  Definition free (p : process) (d : nat) : Prop := forall i, on i = d -> resume_cfg (term p i) = None.
  Definition kept (p p' : process) : Prop :=
    (forall i, resume_cfg (term p' i) = resume_cfg (term p i)) /\
    (forall d, free p d -> d_tio (dev p' d) = d_tio (dev p d)) /\
    forall n, acts p' n = acts p n \/ acts p' n = Ours /\ exists i c, resume_cfg (term p i) = Some c /\ handled c n = true.

  Lemma kept_refl p : kept p p.
  Proof. unfold kept. auto. Qed.
  Lemma kept_trans a b c : kept a b -> kept b c -> kept a c.
  Proof.
    intros (A1 & A2 & A3) (B1 & B2 & B3). split; [intros i; rewrite B1; apply A1|]. split.
    - intros d H. rewrite B2; [now apply A2|]. intros i Hi. rewrite A1. now apply H.
    - intros n. destruct (B3 n) as [H|[H (i & x & Hi & Hx)]].
      + rewrite H. apply A3.
      + right. split; [exact H|]. exists i, x. rewrite <- A1. auto.
  Qed.

  Lemma read_kept i l o p p1 r : reading o -> pstep C m on i l o p = Some (p1, r) -> kept p p1.
  Proof.
    intros Ho. unfold pstep. destruct (rstep _ _ _ _) as [[s r1]|] eqn:E; [|discriminate]. intros [= <- <-].
    apply rstep_reads in E; [|apply Hm|exact Ho]. destruct E as [E1 E2]. destruct (settle_keeps s) as (S1 & S2 & S3).
    cbn [resume_cfg enter] in E1, E2. unfold kept, leave. cbn [term acts dev].
    split; [|split].
    - intros k. destruct (Nat.eqb_spec k i) as [->|]; [|reflexivity]. rewrite S2. exact E1.
    - intros d Hd. destruct (Nat.eqb_spec d (on i)) as [->|]; [|reflexivity]. cbn [d_tio]. rewrite (Hd i eq_refl) in E2. rewrite S1. apply E2.
    - intros n. rewrite S3. destruct (resume_cfg (term p i)) as [c|] eqn:Er.
      + specialize (E2 n). cbn [disp enter] in E2.
        destruct (handled c n) eqn:Eh; [|left; exact E2]. destruct E2 as [E2|E2]; [left; exact E2|]. right. split; [exact E2|]. eauto.
      + left. destruct E2 as (_ & E2 & _). now rewrite E2.
  Qed.

  Lemma prep_step i l cfg p p1 st : pstep C m on i l (RPrepare cfg) p = Some (p1, YState st) ->
    exists s, prepared_from cfg (enter on i l p) s st /\ p1 = leave on i (settle s) p.
  Proof.
    unfold pstep. cbn [rstep]. unfold ret. destruct (prepare _ cfg _) as [s b|s e| |] eqn:E; try discriminate.
    intros [= <- <-]. exists s. split; [|reflexivity]. eapply prepare_ret. exact E.
  Qed.
  Lemma rest_step i l st p p1 : pstep C m on i l (RRestore st) p = Some (p1, YUnit) ->
    exists s, restored_to st (enter on i l p) s /\ p1 = leave on i (settle s) p.
  Proof.
    unfold pstep. cbn [rstep]. unfold ret. destruct (restore _ st _) as [s b|s e| |] eqn:E; try discriminate.
    intros [= <-]. exists s. split; [|reflexivity]. eapply restore_ret. exact E.
  Qed.

  Lemma nest_kept i l cfg p p1 st p2 l' p3 : pstep C m on i l (RPrepare cfg) p = Some (p1, YState st) -> kept p1 p2 ->
    pstep C m on i l' (RRestore st) p2 = Some (p3, YUnit) -> kept p p3.
  Proof.
    intros H1 (K1 & K2 & K3) H3. apply prep_step in H1 as (s1 & P & ->). apply rest_step in H3 as (s3 & R & ->).
    destruct (back_where _ _ _ _ _ _ P R) as (B1 & B2 & B3). cbn [tio resume_cfg disp enter] in B1, B2, B3.
    destruct (settle_keeps s1) as (S1 & S2 & S3). destruct (settle_keeps s3) as (T1 & T2 & T3).
    destruct P as (_ & P1 & P2 & _ & P4 & _). cbn [tio resume_cfg disp enter] in P1, P2, P4.
    cbn [term leave acts dev] in K1, K2, K3. unfold kept, leave. cbn [term acts dev]. split; [|split].
    - intros k. specialize (K1 k). destruct (Nat.eqb_spec k i) as [E|E]; [rewrite E, T2; exact B2|exact K1].
    - intros d Hd. destruct (Nat.eqb_spec d (on i)) as [E|E]; [rewrite E; cbn [d_tio]; rewrite T1; exact B1|].
      specialize (K2 d). apply Nat.eqb_neq in E as E'. rewrite E' in K2. apply K2. intros k Hk. cbn [term leave].
      destruct (Nat.eqb_spec k i) as [Ek|Ek]; [congruence|now apply Hd].
    - intros n. rewrite T3, B3. destruct (handled cfg n) eqn:Eh; [now left|].
      specialize (K3 n). rewrite S3, P2, Eh in K3. destruct K3 as [K3|[K3 (k & c & Hk & Hc)]]; [now left|].
      right. split; [exact K3|]. exists k, c. split; [|exact Hc]. destruct (Nat.eqb_spec k i) as [E|E]; [|exact Hk].
      rewrite S2, P4 in Hk. injection Hk as <-. congruence.
  Qed.

  Lemma nested_kept p p' : nested C m on p p' -> kept p p'.
  Proof.
    intros H. induction H as [p|p i l o p1 r p' Ho Hs H IH|p i l cfg p1 st p2 l' p3 p' H1 H2 IH2 H3 H4 IH4].
    - apply kept_refl.
    - eapply kept_trans; [eapply read_kept; eauto|exact IH].
    - eapply kept_trans; [eapply nest_kept; eauto|exact IH4].
  Qed.

  Lemma nested_restores p p' : nested C m on p p' -> (forall i, resume_cfg (term p i) = None) ->
    (forall d, d_tio (dev p' d) = d_tio (dev p d)) /\ (forall n, acts p' n = acts p n) /\ forall i, resume_cfg (term p' i) = None.
  Proof.
    intros H Hn. apply nested_kept in H as (K1 & K2 & K3). split; [|split].
    - intros d. apply K2. intros i _. apply Hn.
    - intros n. destruct (K3 n) as [H|[_ (i & c & Hi & _)]]; [exact H|]. rewrite Hn in Hi. discriminate Hi.
    - intros i. rewrite K1. apply Hn.
  Qed.

  Lemma crossed i j cfg cfg' la lb lc ld p p1 p2 p3 p4 st st' : i <> j ->
    pstep C m on i la (RPrepare cfg) p = Some (p1, YState st) -> pstep C m on j lb (RPrepare cfg') p1 = Some (p2, YState st') ->
    pstep C m on i lc (RRestore st) p2 = Some (p3, YUnit) -> pstep C m on j ld (RRestore st') p3 = Some (p4, YUnit) ->
    (resume_cfg (term p3 j) = Some cfg' /\
     (forall n, acts p3 n = if handled cfg n then acts p n else if handled cfg' n then Ours else acts p n) /\
     (on i = on j -> d_tio (dev p3 (on j)) = d_tio (dev p (on j)))) /\
    (resume_cfg (term p4 i) = resume_cfg (term p i) /\ resume_cfg (term p4 j) = resume_cfg (term p j) /\
     (forall n, acts p4 n = if handled cfg n && handled cfg' n then Ours else acts p n) /\
     (on i = on j -> d_tio (dev p4 (on j)) = raw_tio cfg (d_tio (dev p (on j))))).
  Proof.
    intros Hij H1 H2 H3 H4. apply prep_step in H1 as (s1 & P & ->). apply prep_step in H2 as (s2 & P' & ->).
    apply rest_step in H3 as (s3 & R & ->). apply rest_step in H4 as (s4 & R' & ->).
    destruct (back_where _ _ _ _ _ _ P R) as (B1 & B2 & B3). destruct (back_where _ _ _ _ _ _ P' R') as (B1' & B2' & B3').
    destruct (settle_keeps s1) as (S1 & S2 & S3). destruct (settle_keeps s2) as (S1' & S2' & S3').
    destruct (settle_keeps s3) as (T1 & T2 & T3). destruct (settle_keeps s4) as (T1' & T2' & T3').
    destruct P as (_ & P1 & P2 & _ & P4 & _). destruct P' as (_ & P1' & P2' & _ & P4' & _).
    cbn [tio resume_cfg disp enter leave term acts dev] in *.
    assert (Eij : (j =? i)%nat = false) by (apply Nat.eqb_neq; congruence).
    assert (Eji : (i =? j)%nat = false) by (apply Nat.eqb_neq; congruence).
    rewrite ?Nat.eqb_refl, ?Eij, ?Eji in *. rewrite ?Nat.eqb_refl, ?Eij, ?Eji in *.
    split; [split; [|split]|split; [|split; [|split]]].
    - rewrite S2'. exact P4'.
    - intros n. rewrite T3, B3, S3', P2', S3, P2. destruct (handled cfg n), (handled cfg' n); reflexivity.
    - intros E. rewrite E, Nat.eqb_refl. cbn [d_tio]. rewrite T1, B1, E. reflexivity.
    - rewrite T2. exact B2.
    - rewrite T2'. exact B2'.
    - intros n. rewrite T3', B3', S3, P2, T3, B3, S3', P2', S3, P2. destruct (handled cfg n), (handled cfg' n); reflexivity.
    - intros E. cbn [d_tio]. rewrite T1', B1'. rewrite E, Nat.eqb_refl. cbn [d_tio]. rewrite S1, P1, E. reflexivity.
  Qed.

  Lemma handle_quiet c sig s : ends (fun s' => quiet s s') (fun s' _ => quiet s s') (handle_signal c sig s).
  Proof.
    assert (Hrep : forall s', quiet s s' -> ends (fun s' => quiet s s') (fun s' _ => quiet s s') (report_signal sig s')).
    { intros s' H. unfold report_signal. destruct (ss_contains _ _); exact H. }
    destruct sig; cbn [handle_signal]; try (apply Hrep, quiet_refl).
    - eapply ends_bind with (Q := fun s' _ => quiet s s').
      + unfold resume. destruct (resume_cfg s); [|apply quiet_refl]. eapply ends_bind with (Q := fun s' _ => quiet s s').
        * eapply ends_weak; [apply prepare_ends| |].
          -- intros s' (H & _). exact H.
          -- intros s' a (H & _). exact H.
        * intros s' a H. exact H.
      + intros s' a H. now apply Hrep.
    - eapply ends_bind with (Q := fun s' _ => quiet s s').
      + unfold term_size. apply guard_ends; [intros w z H; exact H|intros w z a H; exact H|].
        destruct (win s); apply quiet_refl.
      + intros s' a H. exact H.
  Qed.

  Lemma taken i t l p p' r sig : peek_event (inbuf (term p i)) (m i) = Val PNone -> conv_signal (slot p) = Some sig ->
    Forall no_signal l -> pstep C m on i l (RRead t) p = Some (p', r) ->
    slot p' = 0 /\ (forall j, j <> i -> term p' j = term p j) /\ forall d, d <> on i -> dev p' d = dev p d.
  Proof.
    intros Hp Hs Hl. unfold pstep. cbn [rstep]. unfold ret. set (s := enter on i l p).
    assert (Ht : try_read (m i) s = Ret s None).
    { unfold try_read, peek. change (inbuf s) with (inbuf (term p i)). rewrite Hp. destruct (inbuf (term p i)); reflexivity. }
    destruct (advance_later s) as ((pre & L1) & _).
    assert (La : last_sig (advance s) = slot p /\ Forall no_signal (time (advance s))).
    { split.
      - unfold advance. change (time s) with l. change (slot p) with (last_sig s). generalize s. clear -Hl.
        induction Hl as [|k l Hk Hl IH]; intros s; [reflexivity|]. cbn [pass]. destruct k; try (rewrite IH); try reflexivity. destruct Hk.
      - change (time s) with l in L1. rewrite L1 in Hl. apply Forall_app in Hl. apply Hl. }
    destruct La as [La Lt]. rewrite <- La in Hs. destruct (read_signal (C i) (m i) t s sig Ht Hs) as (cap & ->).
    pose proof (handle_quiet (C i) sig (with_inbuf (inbuf s) cap (with_last 0 (advance s)))) as Hq.
    set (z := with_inbuf _ _ _) in *.
    assert (G : forall s', quiet z s' -> slot (leave on i (settle s') p) = 0 /\ (forall j, j <> i -> term (leave on i (settle s') p) j = term p j) /\ forall d, d <> on i -> dev (leave on i (settle s') p) d = dev p d).
    { intros s' (_ & _ & Q & _ & _ & _ & Qt). split; [|split].
      - cbn [slot leave]. rewrite settle_quiet; [exact Q|]. rewrite Qt. exact Lt.
      - intros j Hj. cbn [term leave]. apply Nat.eqb_neq in Hj. now rewrite Hj.
      - intros d Hd. cbn [dev leave]. apply Nat.eqb_neq in Hd. now rewrite Hd. }
    destruct (handle_signal (C i) sig z) as [s' e|s' e| |]; cbn [ends] in Hq; try discriminate; intros [= <- <-]; now apply G.
  Qed.
End Nested.
