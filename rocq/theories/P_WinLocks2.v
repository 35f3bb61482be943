(** Proofs about locking on Windows: sessions are atomic (C90). *)
From Verif Require Import Base M_Geom M_Buf M_Writer M_Locks S_Locks P_Locks P_Locks2 M_WinLocks S_WinLocks.

Lemma wcompile_phased p : forall r w, wfollows false r w p ->
  phased (some w) (screen_guard w) false (wcompile p).
Proof.
  induction p as [|c k IH]; intros r w H; [exact I|].
  destruct H as [Ha Hk].
  assert (G : forall a, phased (some (write_guard_after c a w)) (screen_guard (write_guard_after c a w)) false (wcompile (k a)))
    by (intros a; eapply IH, Hk). clear IH Hk.
  destruct Ha as [Ha Hs]; destruct c; cbn [allowed] in Ha; cbn [wcompile wmethod write_guard_after] in *;
    repeat match goal with H : _ /\ _ |- _ => destruct H | H : SRRead = SRRead -> _ |- _ => destruct (H eq_refl) as [?|[_ ?]]; clear H end; subst;
    unfold with_reader, wscreen_read_block, wread_block, wait_block;
    unfold wwith_writer, wdrop_screen_writer, drop_writer;
    try (match goal with o : wop |- _ => destruct o as [| | | | | | | | | |[|]|[|]|[|]|[|]| | | | | | |] end);
    try (apply (G AOk));
    try (destruct w as [[|]|]);
    repeat (cbn [phased covers some screen_guard];
            repeat match goal with
                   | |- true = true \/ _ => left; reflexivity
                   | |- _ \/ _ => right
                   | |- _ /\ _ => split
                   | |- forall _ : ans, _ => intros ?a
                   | |- forall _ : choice, _ => intros [[|]|? ? ?|]
                   | |- phased _ _ _ (match ?a with AOk => _ | _ => _ end) => destruct a
                   | |- true = true => reflexivity
                   | |- false = false => reflexivity
                   end);
    try exact (G AOk); try exact (G AWouldBlock); try exact (G AGone);
    try match goal with
        | a : ans |- _ => exact (G a)
        end;
    try apply (G (AErr _)); try apply (G (AResized _)); try apply (G (AOther _)).
Qed.

Section Replay.
  Context {Wd Dd : Type}.
  Variable M : access Wd Dd.
  Notation wreplays := (wreplays M).

  Lemma wreplays_app l1 : forall l2 s s',
    wreplays (l1 ++ l2) s s' <-> exists s1, wreplays l1 s s1 /\ wreplays l2 s1 s'.
  Proof.
    induction l1 as [|[a r] l1 IH]; intros l2 s s'; cbn.
    - split; [intros H; exists s; auto|intros [s1 [-> H]]; exact H].
    - rewrite IH. split.
      + intros [H [s1 [H1 H2]]]. exists s1. auto.
      + intros [s1 [[H H1] H2]]. split; [exact H|]. exists s1. auto.
  Qed.

  Lemma wswap_one a r b q s s' : covers true false a -> covers false true b ->
    wreplays [(a, r); (b, q)] s s' <-> wreplays [(b, q); (a, r)] s s'.
  Proof.
    intros Ha Hb.
    destruct a as [a|a|]; cbn in Ha; try discriminate Ha; [|destruct Ha; discriminate].
    destruct b as [b|b|]; cbn in Hb; try discriminate Hb; [|destruct Hb; discriminate].
    destruct s as [w d]. cbn.
    destruct (on_writer M a w) as [w' x] eqn:Ew, (on_data M b d) as [d' y] eqn:Ed. cbn.
    rewrite ?Ew, ?Ed. cbn. tauto.
  Qed.

  Lemma wswap_right a r l : covers true false a -> only_d l -> forall s s',
    wreplays ((a, r) :: l) s s' <-> wreplays (l ++ [(a, r)]) s s'.
  Proof.
    intros Ha Hl. induction Hl as [|[b q] l Hb Hl IH]; intros s s'; [reflexivity|].
    change ((a, r) :: (b, q) :: l) with ([(a, r); (b, q)] ++ l).
    rewrite wreplays_app. cbn [app].
    change ((b, q) :: l ++ [(a, r)]) with ([(b, q)] ++ (l ++ [(a, r)])).
    rewrite wreplays_app. split.
    - intros [s1 [H1 H2]]. apply (wswap_one a r b q _ _ Ha Hb) in H1.
      change [(b, q); (a, r)] with ([(b, q)] ++ [(a, r)]) in H1.
      apply wreplays_app in H1. destruct H1 as [s2 [H1 H3]]. exists s2. split; [exact H1|].
      apply IH. change ((a, r) :: l) with ([(a, r)] ++ l). apply wreplays_app. eauto.
    - intros [s2 [H1 H2]]. apply IH in H2.
      change ((a, r) :: l) with ([(a, r)] ++ l) in H2. apply wreplays_app in H2.
      destruct H2 as [s1 [H2 H3]]. exists s1. split; [|exact H3].
      apply wswap_one; [exact Ha|exact Hb|].
      change [(b, q); (a, r)] with ([(b, q)] ++ [(a, r)]). apply wreplays_app. eauto.
  Qed.

  Lemma wswap_lists k l : only_w k -> only_d l -> forall s s',
    wreplays (k ++ l) s s' <-> wreplays (l ++ k) s s'.
  Proof.
    intros Hk Hl. induction Hk as [|[a r] k Ha Hk IH]; intros s s'.
    - now rewrite app_nil_r.
    - cbn [app]. change ((a, r) :: k ++ l) with ([(a, r)] ++ (k ++ l)).
      change (l ++ (a, r) :: k) with (l ++ [(a, r)] ++ k). rewrite (app_assoc l).
      split; intros H.
      + apply (wreplays_app [(a, r)]) in H. destruct H as [s1 [H1 H2]]. apply IH, wreplays_app in H2. destruct H2 as [s2 [H2 H3]].
        apply (wreplays_app (l ++ [(a, r)])). exists s2. split; [|exact H3]. apply (wswap_right a r l Ha Hl).
        change ((a, r) :: l) with ([(a, r)] ++ l). apply wreplays_app. eauto.
      + apply (wreplays_app (l ++ [(a, r)])) in H. destruct H as [s2 [H1 H2]].
        apply (wswap_right a r l Ha Hl) in H1.
        change ((a, r) :: l) with ([(a, r)] ++ l) in H1. apply wreplays_app in H1.
        destruct H1 as [s1 [H1 H3]]. apply (wreplays_app [(a, r)]). exists s1. split; [exact H1|].
        apply IH, wreplays_app. eauto.
  Qed.

  Lemma wreplays_last l a r s s1 s' : wreplays l s s1 -> wmeans M a s1 = (s', r) ->
    wreplays (l ++ [(a, r)]) s s'.
  Proof.
    intros H Hm. apply wreplays_app. exists s1. split; [exact H|]. cbn. rewrite Hm. auto.
  Qed.

  (** The invariant. *)
  Record winv (s0 : Wd * Dd) (tr : list event) (c : wconfig Wd Dd) (order : order_t) (sh : nat -> bool)
    : Prop := wInv {
    wv_threads : forall i, inv1 i (is i (wowner c LWriter)) (is i (wowner c LData)) (sh i)
                            (sess_of i tr) order (wthreads c i);
    wv_shared : wreplays (flat order ++ part_w sh tr (wowner c) ++ part_d sh tr (wowner c)) s0 (wshared c)
  }.

  (** Acquiring the writer or the data lock. *)
  Lemma winv_acq s0 tr t o s order sh i l k :
    winv s0 tr (WConfig t o s) order sh -> o l = None ->
    (match l with
     | LReader => forall w d b, phased w d b (t i) -> phased w d b k
     | LWriter => forall w d b, phased w d b (t i) -> w = true \/ b = false /\ phased true d false k
     | LData => forall w d b, phased w d b (t i) -> d = true \/ b = false /\ phased w true false k
     end) ->
    winv s0 (tr ++ [EvAcq i l]) (WConfig (set_thread i k t) (set_owner l (Some i) o) s) order sh.
  Proof.
    intros [Hth Hsh] Ho Hp. cbn [wthreads wowner wshared] in *.
    assert (Hoth : forall j, j <> i -> forall l', is j (set_owner l (Some i) o l') = is j (o l')).
    { intros j Hj l'. unfold set_owner. destruct (lock_eqb l' l) eqn:El; [|reflexivity].
      assert (l' = l) as -> by (destruct l', l; try discriminate El; reflexivity).
      rewrite Ho. cbn. apply Nat.eqb_neq. congruence. }
    split; cbn [wthreads wowner wshared].
    - intros j. destruct (Nat.eq_dec j i) as [->|Hj].
      + rewrite set_thread_same. specialize (Hth i). destruct Hth as [Hw Hd Hph Hs Hn Hm Hc].
        destruct l; cbn [set_owner lock_eqb] in *; unfold set_owner; cbn [lock_eqb].
        * rewrite sess_snoc. cbn [sess_step]. constructor; auto.
        * rewrite Ho in *. cbn [is] in *. apply Hp in Hph. destruct Hph as [Hph|[Hb Hph]]; [discriminate Hph|].
          rewrite sess_snoc. cbn [sess_step]. rewrite !Nat.eqb_refl. rewrite Hb in *.
          constructor; cbn [s_w s_d s_cur s_done]; auto; try discriminate.
          intros _. eapply Forall_impl; [|apply Hc; reflexivity].
          intros [a r]; cbn. destruct a; cbn; tauto.
        * rewrite Ho in *. cbn [is] in *. apply Hp in Hph. destruct Hph as [Hph|[Hb Hph]]; [discriminate Hph|].
          rewrite sess_snoc. cbn [sess_step]. rewrite !Nat.eqb_refl. rewrite Hb in *.
          constructor; cbn [s_w s_d s_cur s_done]; auto; try discriminate.
          intros _. eapply Forall_impl; [|apply Hc; reflexivity].
          intros [a r]; cbn. destruct a; cbn; tauto.
      + rewrite set_thread_other by exact Hj. rewrite !Hoth by exact Hj.
        rewrite sess_snoc, sess_other by (cbn; congruence). apply Hth.
    - assert (Hpend : forall j, pend sh (tr ++ [EvAcq i l]) j = pend sh tr j).
      { intros j. unfold pend. rewrite sess_snoc. destruct (Nat.eq_dec i j) as [->|Hj].
        - destruct l; cbn; rewrite ?Nat.eqb_refl; reflexivity.
        - now rewrite sess_other. }
      assert (Hnone : is i (o LWriter) = false -> is i (o LData) = false -> pend sh tr i = []).
      { intros Hw Hd. unfold pend. destruct (sh i); [reflexivity|]. apply (i_none _ _ _ _ _ _ _ (Hth i) Hw Hd). }
      replace (part_w sh (tr ++ [EvAcq i l]) (set_owner l (Some i) o) ++
               part_d sh (tr ++ [EvAcq i l]) (set_owner l (Some i) o))
        with (part_w sh tr o ++ part_d sh tr o); [exact Hsh|].
      unfold part_w, part_d, set_owner. destruct l; cbn [lock_eqb].
      + destruct (o LWriter), (o LData); now rewrite ?Hpend.
      + rewrite Ho in *. cbn [is] in *. destruct (o LData) as [j|] eqn:Hd.
        * rewrite !Hpend. destruct (Nat.eq_dec i j) as [->|Hj].
          { rewrite Nat.eqb_refl. now rewrite app_nil_r. }
          rewrite (proj2 (Nat.eqb_neq i j) Hj). rewrite Hnone; [reflexivity|reflexivity|].
          apply Nat.eqb_neq. congruence.
        * rewrite Hpend, Hnone by reflexivity. reflexivity.
      + rewrite Ho in *. cbn [is] in *. destruct (o LWriter) as [j|] eqn:Hw; cbn [is].
        * rewrite !Hpend. destruct (Nat.eqb_spec j i) as [->|Hj]; [reflexivity|].
          rewrite Hnone; [reflexivity| |reflexivity]. cbn. now apply Nat.eqb_neq.
        * rewrite Hpend, Hnone by reflexivity. reflexivity.
  Qed.

  (** Releasing. *)
  Lemma winv_rel s0 tr t o s order sh i l k :
    winv s0 tr (WConfig t o s) order sh -> o l = Some i -> t i = Rel l k ->
    exists order' sh',
    winv s0 (tr ++ [EvRel i l]) (WConfig (set_thread i k t) (set_owner l None o) s) order' sh'.
  Proof.
    intros [Hth Hsh] Ho Ht. cbn [wthreads wowner wshared] in *.
    assert (Hoth : forall j, j <> i -> forall l', is j (set_owner l None o l') = is j (o l')).
    { intros j Hj l'. unfold set_owner. destruct (lock_eqb l' l) eqn:El; [|reflexivity].
      assert (l' = l) as -> by (destruct l', l; try discriminate El; reflexivity).
      rewrite Ho. cbn. symmetry. apply Nat.eqb_neq. congruence. }
    pose proof (Hth i) as [Hw Hd Hph Hs Hn Hm Hc]. rewrite Ht in Hph. cbn [phased] in Hph.
    destruct l.
    - (* reader *)
      exists order, sh. split; cbn [wthreads wowner wshared].
      + intros j. destruct (Nat.eq_dec j i) as [->|Hj].
        * rewrite set_thread_same, sess_snoc. cbn [sess_step]. unfold set_owner. cbn [lock_eqb].
          constructor; auto.
        * rewrite set_thread_other by exact Hj. rewrite !Hoth by exact Hj.
          rewrite sess_snoc, sess_other by (cbn; congruence). apply Hth.
      + assert (Hpend : forall j, pend sh (tr ++ [EvRel i LReader]) j = pend sh tr j).
        { intros j. unfold pend. rewrite sess_snoc. reflexivity. }
        unfold part_w, part_d, set_owner in *. cbn [lock_eqb].
        destruct (o LWriter), (o LData); rewrite ?Hpend; exact Hsh.
    - (* writer *)
      rewrite Ho, is_refl in Hw, Hs, Hn, Hc.
      destruct (is i (o LData)) eqn:Ed; cbn [is] in *.
      + (* the data is still held: commit now *)
        destruct (sh i) eqn:Es; [specialize (Hs eq_refl); discriminate Hs|].
        pose proof (is_true _ _ Ed) as Hod.
        exists (order ++ [(i, s_cur (sess_of i tr))]), (upd sh i true). split; cbn [wthreads wowner wshared].
        * intros j. destruct (Nat.eq_dec j i) as [->|Hj].
          -- rewrite set_thread_same, sess_snoc, upd_same. cbn [sess_step]. rewrite Nat.eqb_refl, Hd.
             unfold set_owner. cbn [lock_eqb]. rewrite Hod, is_refl.
             constructor; cbn [s_w s_d s_cur s_done]; auto; try discriminate.
             rewrite mine_snoc_same, Hm. reflexivity.
          -- rewrite set_thread_other by exact Hj. rewrite !Hoth by exact Hj.
             rewrite sess_snoc, sess_other by (cbn; congruence). rewrite upd_other by exact Hj.
             apply inv1_other; [congruence|apply Hth].
        * unfold part_w, part_d, set_owner in *. cbn [lock_eqb is] in *. rewrite Ho, Hod in Hsh. rewrite Hod.
          rewrite is_refl in Hsh. unfold pend in *. rewrite upd_same, Es in *.
          rewrite flat_snoc. rewrite !app_nil_r in *. exact Hsh.
      + assert (Hoj : forall j, o LData = Some j -> j <> i).
        { intros j Hj ->. rewrite Hj, is_refl in Ed. discriminate Ed. }
        destruct (sh i) eqn:Es.
        * (* already committed *)
          exists order, (upd sh i false). split; cbn [wthreads wowner wshared].
          -- intros j. destruct (Nat.eq_dec j i) as [->|Hj].
             ++ rewrite set_thread_same, sess_snoc, upd_same. cbn [sess_step]. rewrite Nat.eqb_refl, Hd.
                unfold set_owner. cbn [lock_eqb is]. rewrite Ed.
                constructor; cbn [s_w s_d s_cur s_done]; auto; discriminate.
             ++ rewrite set_thread_other by exact Hj. rewrite !Hoth by exact Hj.
                rewrite sess_snoc, sess_other by (cbn; congruence). rewrite upd_other by exact Hj. apply Hth.
          -- unfold part_w, part_d, set_owner in *. cbn [lock_eqb is] in *. rewrite Ho in Hsh.
             replace (pend sh tr i) with (@nil (act * ans)) in Hsh by (unfold pend; now rewrite Es).
             destruct (o LData) as [j|] eqn:Hod; [|exact Hsh].
             specialize (Hoj j eq_refl). rewrite is_other in Hsh by congruence.
             rewrite pend_other with (sh := sh); [exact Hsh|cbn; congruence|now apply upd_other].
        * (* commit now *)
          exists (order ++ [(i, s_cur (sess_of i tr))]), sh. split; cbn [wthreads wowner wshared].
          -- intros j. destruct (Nat.eq_dec j i) as [->|Hj].
             ++ rewrite set_thread_same, sess_snoc. cbn [sess_step]. rewrite Nat.eqb_refl, Hd.
                unfold set_owner. cbn [lock_eqb is]. rewrite Ed, Es.
                constructor; cbn [s_w s_d s_cur s_done]; auto; try discriminate.
                rewrite mine_snoc_same, Hm. reflexivity.
             ++ rewrite set_thread_other by exact Hj. rewrite !Hoth by exact Hj.
                rewrite sess_snoc, sess_other by (cbn; congruence).
                apply inv1_other; [congruence|apply Hth].
          -- unfold part_w, part_d, set_owner in *. cbn [lock_eqb is] in *. rewrite Ho in Hsh.
             replace (pend sh tr i) with (s_cur (sess_of i tr)) in Hsh by (unfold pend; now rewrite Es).
             rewrite flat_snoc. rewrite <- app_assoc.
             destruct (o LData) as [j|] eqn:Hod; [|exact Hsh].
             specialize (Hoj j eq_refl). rewrite is_other in Hsh by congruence.
             rewrite pend_other with (sh := sh); [exact Hsh|cbn; congruence|reflexivity].
    - (* data *)
      rewrite Ho, is_refl in Hd, Hs, Hn, Hc.
      destruct (is i (o LWriter)) eqn:Ew; cbn [is] in *.
      + destruct (sh i) eqn:Es; [specialize (Hs eq_refl); discriminate Hs|].
        pose proof (is_true _ _ Ew) as How.
        exists (order ++ [(i, s_cur (sess_of i tr))]), (upd sh i true). split; cbn [wthreads wowner wshared].
        * intros j. destruct (Nat.eq_dec j i) as [->|Hj].
          -- rewrite set_thread_same, sess_snoc, upd_same. cbn [sess_step]. rewrite Nat.eqb_refl, Hw.
             unfold set_owner. cbn [lock_eqb]. rewrite How, is_refl.
             constructor; cbn [s_w s_d s_cur s_done]; auto; try discriminate.
             rewrite mine_snoc_same, Hm. reflexivity.
          -- rewrite set_thread_other by exact Hj. rewrite !Hoth by exact Hj.
             rewrite sess_snoc, sess_other by (cbn; congruence). rewrite upd_other by exact Hj.
             apply inv1_other; [congruence|apply Hth].
        * unfold part_w, part_d, set_owner in *. cbn [lock_eqb is] in *. rewrite Ho, How in Hsh. rewrite How.
          rewrite is_refl in Hsh. unfold pend in *. rewrite upd_same, Es in *.
          rewrite flat_snoc. rewrite !app_nil_r in *. exact Hsh.
      + assert (Hoj : forall j, o LWriter = Some j -> j <> i).
        { intros j Hj ->. rewrite Hj, is_refl in Ew. discriminate Ew. }
        destruct (sh i) eqn:Es.
        * exists order, (upd sh i false). split; cbn [wthreads wowner wshared].
          -- intros j. destruct (Nat.eq_dec j i) as [->|Hj].
             ++ rewrite set_thread_same, sess_snoc, upd_same. cbn [sess_step]. rewrite Nat.eqb_refl, Hw.
                unfold set_owner. cbn [lock_eqb is]. rewrite Ew.
                constructor; cbn [s_w s_d s_cur s_done]; auto; discriminate.
             ++ rewrite set_thread_other by exact Hj. rewrite !Hoth by exact Hj.
                rewrite sess_snoc, sess_other by (cbn; congruence). rewrite upd_other by exact Hj. apply Hth.
          -- unfold part_w, part_d, set_owner in *. cbn [lock_eqb is] in *. rewrite Ho, Ew in Hsh.
             replace (pend sh tr i) with (@nil (act * ans)) in Hsh by (unfold pend; now rewrite Es).
             destruct (o LWriter) as [j|] eqn:How; [|exact Hsh].
             specialize (Hoj j eq_refl).
             rewrite pend_other with (sh := sh); [exact Hsh|cbn; congruence|now apply upd_other].
        * exists (order ++ [(i, s_cur (sess_of i tr))]), sh. split; cbn [wthreads wowner wshared].
          -- intros j. destruct (Nat.eq_dec j i) as [->|Hj].
             ++ rewrite set_thread_same, sess_snoc. cbn [sess_step]. rewrite Nat.eqb_refl, Hw.
                unfold set_owner. cbn [lock_eqb is]. rewrite Ew, Es.
                constructor; cbn [s_w s_d s_cur s_done]; auto; try discriminate.
                rewrite mine_snoc_same, Hm. reflexivity.
             ++ rewrite set_thread_other by exact Hj. rewrite !Hoth by exact Hj.
                rewrite sess_snoc, sess_other by (cbn; congruence).
                apply inv1_other; [congruence|apply Hth].
          -- unfold part_w, part_d, set_owner in *. cbn [lock_eqb is] in *. rewrite Ho, Ew in Hsh.
             replace (pend sh tr i) with (s_cur (sess_of i tr)) in Hsh by (unfold pend; now rewrite Es).
             rewrite flat_snoc, app_nil_r, <- app_assoc.
             apply wreplays_app in Hsh. destruct Hsh as [s1 [H1 H2]].
             apply wreplays_app. exists s1. split; [exact H1|].
             assert (Hcur : only_d (s_cur (sess_of i tr))) by (apply Hc; reflexivity).
             destruct (o LWriter) as [j|] eqn:How.
             ++ specialize (Hoj j eq_refl).
                rewrite pend_other with (sh := sh); [|cbn; congruence|reflexivity].
                apply (wswap_lists (pend sh tr j)); [|exact Hcur|exact H2].
                unfold pend. destruct (sh j) eqn:Esj; [constructor|].
                pose proof (i_cov _ _ _ _ _ _ _ (Hth j) Esj) as Hcj.
                rewrite Ho, is_refl, is_other in Hcj by congruence. exact Hcj.
             ++ rewrite app_nil_r. exact H2.
  Qed.

  (** Accessing. *)
  Lemma winv_act s0 tr t o s s' order sh i a r k :
    winv s0 tr (WConfig t o s) order sh -> t i = Act a k -> wmeans M a s = (s', r) ->
    winv s0 (tr ++ [EvAct i a r]) (WConfig (set_thread i (k r) t) o s') order sh.
  Proof.
    intros [Hth Hsh] Ht Hm. cbn [wthreads wowner wshared] in *.
    pose proof (Hth i) as [Hw Hd Hph Hs Hn Hmi Hc]. rewrite Ht in Hph. cbn [phased] in Hph.
    destruct Hph as (Hb & Hcov & Hk). specialize (Hc Hb).
    split; cbn [wthreads wowner wshared].
    - intros j. destruct (Nat.eq_dec j i) as [->|Hj].
      + rewrite set_thread_same, sess_snoc. cbn [sess_step]. rewrite Nat.eqb_refl.
        constructor; cbn [s_w s_d s_cur s_done]; auto.
        * intros E1 E2. rewrite E1, E2 in Hcov. destruct a; cbn in Hcov; try discriminate Hcov.
          destruct Hcov; discriminate.
        * rewrite Hb in *. exact Hmi.
        * intros _. apply Forall_app. split; [exact Hc|]. constructor; [exact Hcov|constructor].
      + rewrite set_thread_other by exact Hj.
        rewrite sess_snoc, sess_other by (cbn; congruence). apply Hth.
    - assert (Hpi : pend sh (tr ++ [EvAct i a r]) i = pend sh tr i ++ [(a, r)]).
      { unfold pend. rewrite Hb, sess_snoc. cbn. now rewrite Nat.eqb_refl. }
      assert (Hpo : forall j, j <> i -> pend sh (tr ++ [EvAct i a r]) j = pend sh tr j).
      { intros j Hj. apply pend_other; [cbn; congruence|reflexivity]. }
      unfold part_w, part_d in *.
      destruct (o LWriter) as [j|] eqn:How.
      + destruct (Nat.eq_dec j i) as [->|Hj].
        * rewrite Hpi. destruct (o LData) as [j|] eqn:Hod; cbn [is] in *.
          -- destruct (Nat.eqb_spec i j) as [<-|Hj].
             ++ rewrite app_nil_r in *. rewrite app_assoc. eapply wreplays_last; eauto.
             ++ rewrite Hpo by congruence. rewrite <- app_assoc.
                apply wreplays_app in Hsh. destruct Hsh as [s1 [H1 H2]].
                apply wreplays_app in H2. destruct H2 as [s2 [H2 H3]].
                apply wreplays_app. exists s1. split; [exact H1|].
                apply wreplays_app. exists s2. split; [exact H2|]. cbn [app].
                rewrite Nat.eqb_refl in Hcov. rewrite (proj2 (Nat.eqb_neq j i)) in Hcov by congruence.
                apply wswap_right; [exact Hcov| |eapply wreplays_last; eauto].
                unfold pend. destruct (sh j) eqn:Esj; [constructor|].
                pose proof (i_cov _ _ _ _ _ _ _ (Hth j) Esj) as Hcj. cbn [is] in Hcj.
                rewrite Nat.eqb_refl, (proj2 (Nat.eqb_neq i j)) in Hcj by congruence. exact Hcj.
          -- rewrite app_nil_r in *. rewrite app_assoc. eapply wreplays_last; eauto.
        * rewrite Hpo by exact Hj. cbn [is] in *. rewrite (proj2 (Nat.eqb_neq j i) Hj) in *.
          destruct (o LData) as [j'|] eqn:Hod.
          -- destruct (Nat.eq_dec j' i) as [->|Hj'].
             ++ rewrite (proj2 (Nat.eqb_neq j i) Hj) in *. rewrite Hpi, !app_assoc.
                rewrite !app_assoc in Hsh. eapply wreplays_last; eauto.
             ++ exfalso. cbn [is] in Hcov. rewrite (proj2 (Nat.eqb_neq j' i) Hj') in Hcov.
                destruct a; cbn in Hcov; try discriminate Hcov. destruct Hcov; discriminate.
          -- exfalso. cbn [is] in Hcov. destruct a; cbn in Hcov; try discriminate Hcov.
             destruct Hcov; discriminate.
      + cbn [is] in *. destruct (o LData) as [j'|] eqn:Hod.
        * destruct (Nat.eq_dec j' i) as [->|Hj'].
          -- rewrite Hpi, !app_assoc. rewrite !app_assoc in Hsh. eapply wreplays_last; eauto.
          -- exfalso. cbn [is] in Hcov. rewrite (proj2 (Nat.eqb_neq j' i) Hj') in Hcov.
             destruct a; cbn in Hcov; try discriminate Hcov. destruct Hcov; discriminate.
        * exfalso. cbn [is] in Hcov. destruct a; cbn in Hcov; try discriminate Hcov.
          destruct Hcov; discriminate.
  Qed.

  (** Steps that touch neither lock nor data. *)
  Lemma winv_other s0 tr t o s order sh i k :
    winv s0 tr (WConfig t o s) order sh -> (forall w d b, phased w d b (t i) -> phased w d b k) ->
    winv s0 (tr ++ [EvOther i]) (WConfig (set_thread i k t) o s) order sh.
  Proof.
    intros [Hth Hsh] Hp. cbn [wthreads wowner wshared] in *. split; cbn [wthreads wowner wshared].
    - intros j. rewrite sess_snoc. cbn [sess_step]. destruct (Nat.eq_dec j i) as [->|Hj].
      + rewrite set_thread_same. destruct (Hth i). constructor; auto.
      + rewrite set_thread_other by exact Hj. apply Hth.
    - assert (Hpend : forall j, pend sh (tr ++ [EvOther i]) j = pend sh tr j).
      { intros j. unfold pend. rewrite sess_snoc. reflexivity. }
      unfold part_w, part_d in *. destruct (o LWriter), (o LData); rewrite ?Hpend; exact Hsh.
  Qed.

  Lemma winv_step s0 tr c order sh e c' : winv s0 tr c order sh -> wstep M c e c' ->
    exists order' sh', winv s0 (tr ++ [e]) c' order' sh'.
  Proof.
    intros H St.
    destruct St as [i l k t o s Ht Ho|i l k k' t o s Ht Ho|i l k k' j' t o s Ht Ho
                   |i l k t o s Ht Ho|i a k t o s s' r Ht Ho|i k x t o s Ht].
    - exists order, sh. apply winv_acq; auto. rewrite Ht. destruct l; cbn; auto.
    - exists order, sh. apply winv_acq; auto. rewrite Ht. destruct l; cbn; intros w d b Hp; apply Hp.
    - exists order, sh. apply winv_other; auto. rewrite Ht. destruct l; cbn; intros w d b Hp; apply Hp.
    - eapply winv_rel; eauto.
    - exists order, sh. eapply winv_act; eauto.
    - exists order, sh. apply winv_other; auto. rewrite Ht. cbn. intros w d b Hp. apply Hp.
  Qed.

  Lemma winv_start l s0 : Forall (wfollows false None None) l ->
    winv s0 [] (wstart l s0) [] (fun _ => false).
  Proof.
    intros H. split; cbn; [|reflexivity].
    intros i. constructor; cbn; auto; try discriminate.
    apply (wcompile_phased _ None None).
    destruct (nth_in_or_default i l Finish) as [Hi|Hi]; [|rewrite Hi; cbn; auto].
    rewrite Forall_forall in H. now apply H.
  Qed.

  Lemma winv_run l s0 tr c : Forall (wfollows false None None) l -> wrun M (wstart l s0) tr c ->
    exists order sh, winv s0 tr c order sh.
  Proof.
    intros H R. induction R as [|tr c1 e c2 R [order [sh IH]] St].
    - do 2 eexists. now apply winv_start.
    - eapply winv_step; eauto.
  Qed.

  Lemma wsessions_atomic l s0 tr c : Forall (wfollows false None None) l -> wrun M (wstart l s0) tr c ->
    wowner c LWriter = None -> wowner c LData = None ->
    exists order : list (nat * list (act * ans)),
      (forall i, map snd (filter (fun x => fst x =? i) order) = sessions i tr) /\
      wreplays (concat (map snd order)) s0 (wshared c).
  Proof.
    intros H R Hw Hd. destruct (winv_run l s0 tr c H R) as [order [sh [Hth Hsh]]].
    exists order. split.
    - intros i. destruct (Hth i) as [_ _ _ Hs _ Hm _]. rewrite Hw, Hd in Hs. cbn in Hs.
      unfold sessions. unfold mine in Hm. rewrite Hm. destruct (sh i); [discriminate (Hs eq_refl)|reflexivity].
    - unfold part_w, part_d in Hsh. rewrite Hw, Hd, app_nil_r in Hsh. exact Hsh.
  Qed.
End Replay.
